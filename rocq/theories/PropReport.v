(** C116: the error of a load that fails names the records among which the wrong one is. *)
From Coq Require Import Lia ZifyBool ZifyNat ZifyN.
From Verif Require Import GoStr ModelSq ModelBatch ModelReport SpecReport.

(** ** The texts of the statements *)
Lemma insert_is_insert : forall bi n, has_prefix (insert_text bi n) (B"INSERT") = true.
Proof. reflexivity. Qed.
Lemma update_is_not : forall bi n, has_prefix (update_text bi n) (B"INSERT") = false.
Proof. reflexivity. Qed.

Section Loop.
Variables (V : Type) (bi : batch_insert) (good : list V -> bool) (exec : call V -> bool).
Hypothesis judge : judges_records bi good exec.
Let wide (r : list V) := List.length r = List.length (bi_columns bi).

Lemma batch_verdict : forall rs, Forall wide rs ->
  forallb exec (batch_calls bi (List.length rs) (List.concat rs)) = forallb good rs.
Proof using judge.
  intros rs W. destruct judge as (I & P & O). unfold batch_calls. rewrite forallb_app.
  replace (forallb exec (if has_update bi then _ else [])) with true.
  - cbn [andb forallb]. rewrite I by exact W. apply andb_true_r.
  - destruct (has_update bi); [|reflexivity]. cbn [forallb]. rewrite O by reflexivity. reflexivity.
Qed.

(** Where the loop stops: after [j] whole batches that were accepted, either at a record that cannot be read or at a batch
    that is refused. *)
Lemma loop_stops : (1 <= batch_size bi)%Z ->
  forall rows fails cur base n,
  Forall wide cur -> Forall wide rows -> (Z.of_nat (List.length cur) < batch_size bi)%Z ->
  load_loop bi exec rows fails (List.length cur) (List.concat cur) (base + List.length cur) = LoadFailed n ->
  exists j, let lo := j * Z.to_nat (batch_size bi) in let l := cur ++ rows in
    forallb good (firstn lo l) = true /\ lo <= List.length l /\
    ((fails = true /\ n = S (base + List.length l) /\ List.length l < lo + Z.to_nat (batch_size bi)) \/
     (exists k, lo < k /\ k <= lo + Z.to_nat (batch_size bi) /\ k <= List.length l /\ n = base + k /\
        forallb good (skipn lo (firstn k l)) = false)).
Proof using judge.
  intros S1. induction rows as [|r rows IH]; intros fails cur base n Wc Wr L.
  - cbn [load_loop]. destruct fails.
    + intros [= <-]. exists 0. cbn. rewrite app_nil_r. repeat split; lia.
    + destruct (List.length cur) eqn:E.
      * cbn. discriminate.
      * rewrite <- E at 2. rewrite <- E at 1. rewrite batch_verdict by exact Wc.
        destruct (forallb good cur) eqn:G; [discriminate|]. intros [= <-]. exists 0. cbn. rewrite app_nil_r.
        repeat split; try lia. right. exists (List.length cur). rewrite firstn_all. repeat split; try lia; exact G.
  - cbn [load_loop]. replace (List.concat cur ++ r) with (List.concat (cur ++ [r])) by (rewrite concat_app; cbn; now rewrite app_nil_r).
    assert (Wc' : Forall wide (cur ++ [r])) by (apply Forall_app; split; [exact Wc|constructor; [now inversion Wr|constructor]]).
    assert (Lc : List.length (cur ++ [r]) = S (List.length cur)) by (rewrite app_length; cbn; lia).
    assert (Wr' : Forall wide rows) by now inversion Wr.
    replace (cur ++ r :: rows) with ((cur ++ [r]) ++ rows) by (rewrite <- app_assoc; reflexivity).
    destruct (batch_size bi <=? Z.of_nat (S (List.length cur)))%Z eqn:F.
    + assert (Es : Z.to_nat (batch_size bi) = List.length (cur ++ [r])) by lia.
      rewrite Es at 1. rewrite batch_verdict by exact Wc'. destruct (forallb good (cur ++ [r])) eqn:G.
      * intro R. replace (S (base + List.length cur)) with ((base + List.length (cur ++ [r])) + @List.length (list V) []) in R by (cbn; lia).
        apply (IH fails [] (base + List.length (cur ++ [r])) n) in R; [|constructor|exact Wr'|cbn; lia].
        destruct R as (j & Fg & Lo & D). exists (S j). cbn [app] in *.
        set (s := Z.to_nat (batch_size bi)) in *. cbv zeta.
        replace (S j * s) with (List.length (cur ++ [r]) + j * s) by lia.
        rewrite firstn_app_2, forallb_app, G, Fg. rewrite (app_length (cur ++ [r]) rows). split; [reflexivity|]. split; [lia|].
        destruct D as [(D1 & D2 & D3)|(k & K1 & K2 & K3 & K4 & K5)].
        -- left. repeat split; [exact D1|lia|lia].
        -- right. exists (List.length (cur ++ [r]) + k). repeat split; try lia.
           rewrite firstn_app_2, skipn_app. rewrite skipn_all2 by lia.
           replace (List.length (cur ++ [r]) + j * s - List.length (cur ++ [r])) with (j * s) by lia. exact K5.
      * intros [= <-]. exists 0. cbn [Nat.mul firstn forallb]. split; [reflexivity|]. split; [lia|]. right.
        exists (List.length (cur ++ [r])). rewrite (app_length (cur ++ [r]) rows). repeat split; try lia.
        rewrite firstn_app, Nat.sub_diag, firstn_all. cbn. rewrite app_nil_r. exact G.
    + intro R. replace (S (base + List.length cur)) with (base + List.length (cur ++ [r])) in R by lia.
      rewrite <- Lc in R. apply (IH fails (cur ++ [r]) base n) in R; [exact R|exact Wc'|exact Wr'|lia].
Qed.

(** A whole batch. *)
Lemma loop_batch : (1 <= batch_size bi)%Z ->
  forall rs cur rest fails read,
  Forall wide cur -> Forall wide rs -> rs <> [] -> Z.of_nat (List.length cur + List.length rs) = batch_size bi ->
  load_loop bi exec (rs ++ rest) fails (List.length cur) (List.concat cur) read =
  if forallb good (cur ++ rs) then load_loop bi exec rest fails 0 [] (read + List.length rs) else LoadFailed (read + List.length rs).
Proof using judge.
  intros S1. induction rs as [|r rs IH]; intros cur rest fails read Wc Wr N L; [congruence|].
  cbn [app load_loop]. replace (List.concat cur ++ r) with (List.concat (cur ++ [r])) by (rewrite concat_app; cbn; now rewrite app_nil_r).
  assert (Wc' : Forall wide (cur ++ [r])) by (apply Forall_app; split; [exact Wc|constructor; [now inversion Wr|constructor]]).
  assert (Lc : List.length (cur ++ [r]) = S (List.length cur)) by (rewrite app_length; cbn; lia).
  assert (Wr' : Forall wide rs) by now inversion Wr. cbn [List.length] in L.
  destruct (batch_size bi <=? Z.of_nat (S (List.length cur)))%Z eqn:F.
  - destruct rs as [|r' rs]; [|cbn [List.length] in L; lia].
    replace (Z.to_nat (batch_size bi)) with (List.length (cur ++ [r])) by lia. rewrite batch_verdict by exact Wc'.
    cbn [app List.length]. replace (read + 1) with (S read) by lia. reflexivity.
  - rewrite <- Lc. rewrite IH; [|exact Wc'|exact Wr'| |lia].
    + rewrite <- app_assoc. cbn [app List.length]. replace (S read + List.length rs) with (read + S (List.length rs)) by lia. reflexivity.
    + intros ->. cbn [List.length] in L. lia.
Qed.
End Loop.

Lemma forallb_false_nth {A} (f : A -> bool) : forall l, forallb f l = false -> exists k x, nth_error l k = Some x /\ f x = false.
Proof.
  induction l as [|x l IH]; cbn; [discriminate|]. intro H. destruct (f x) eqn:E.
  - destruct (IH H) as (k & y & N & F). exists (S k), y. auto.
  - exists 0, x. auto.
Qed.
Lemma forallb_nth {A} (f : A -> bool) : forall l k x, forallb f l = true -> nth_error l k = Some x -> f x = true.
Proof. intros l k x H N. rewrite forallb_forall in H. eapply H, nth_error_In, N. Qed.
Lemma nth_firstn {A} : forall (l : list A) n k, k < n -> nth_error (firstn n l) k = nth_error l k.
Proof. induction l as [|x l IH]; intros [|n] [|k] H; cbn; try reflexivity; try lia. apply IH. lia. Qed.
Lemma nth_firstn_some {A} : forall (l : list A) n k x, nth_error (firstn n l) k = Some x -> nth_error l k = Some x /\ k < n.
Proof.
  intros l n k x H. assert (k < List.length (firstn n l)) by (apply nth_error_Some; congruence).
  rewrite firstn_length in *. split; [|lia]. rewrite nth_firstn in H by lia. exact H.
Qed.
Lemma nth_skipn {A} : forall (l : list A) n k, nth_error (skipn n l) k = nth_error l (n + k).
Proof. induction l as [|x l IH]; intros [|n] k; cbn; try reflexivity; [destruct k; reflexivity|apply IH]. Qed.

(** With such a database only the loop can fail. *)
Lemma load_judged {V} (str : bytes -> V) bi good exec rows fails :
  judges_records bi good exec -> bi_columns bi <> [] ->
  load_records str bi exec rows fails =
  if (List.length (bi_columns bi) <? List.length (key_columns bi)) || (bi_batchsize bi <? 0)%Z then LoadCrashed
  else load_loop bi exec rows fails 0 [] 0.
Proof.
  intros (I & P & O) C. unfold load_records. destruct (_ <? List.length _); [reflexivity|]. cbn [orb].
  destruct (bi_columns bi) as [|c0 cs] eqn:Ec; [congruence|]. clear I c0 cs Ec C.
  assert (T : forall on, forallb exec (identity_insert bi on) = true).
  { intro on. unfold identity_insert. destruct (identity_columns bi); [reflexivity|]. destruct (bi_dialect bi); try reflexivity.
    cbn [forallb]. rewrite O by reflexivity. reflexivity. }
  assert (Sv : forallb exec (setvals str bi) = true).
  { unfold setvals. destruct (bi_dialect bi); try reflexivity. apply forallb_forall. intros c Hc. apply in_map_iff in Hc.
    destruct Hc as (x & <- & _). apply O. reflexivity. }
  cbv zeta. rewrite !forallb_app, !T, Sv. cbn [forallb]. rewrite P.
  replace (forallb exec (if has_update bi then _ else [])) with true by (destruct (has_update bi); cbn [forallb]; [now rewrite P|reflexivity]).
  cbn [andb negb]. destruct (_ <? 0)%Z; [reflexivity|]. destruct (load_loop bi exec rows fails 0 [] 0); reflexivity.
Qed.
(** Where a failed load stops. *)
Lemma load_stops {V} (str : bytes -> V) bi good exec rows fails n :
  judges_records bi good exec -> (1 <= batch_size bi)%Z -> bi_columns bi <> [] ->
  Forall (fun r => List.length r = List.length (bi_columns bi)) rows ->
  load_records str bi exec rows fails = LoadFailed n ->
  exists j, let s := Z.to_nat (batch_size bi) in
    j * s < n /\ n <= j * s + s /\ n <= S (List.length rows) /\
    (forall r, bad_record good rows fails r -> j * s < r) /\
    (exists r, bad_record good rows fails r /\ j * s < r /\ r <= n).
Proof.
  intros J S1 C W. rewrite (load_judged str bi good exec rows fails J C). destruct (_ || _); [discriminate|]. intro R.
  change (load_loop bi exec rows fails (@List.length (list V) []) (List.concat []) (0 + @List.length (list V) []) = LoadFailed n) in R.
  apply (loop_stops V bi good exec J S1) in R; [|constructor|exact W|cbn; lia].
  destruct R as (j & G & Lo & D). cbn [app] in *. exists j. cbv zeta. set (s := Z.to_nat (batch_size bi)) in *.
  assert (After : forall r, bad_record good rows fails r -> j * s < r).
  { intros r [(k & row & -> & N & F)|(_ & ->)]; [|lia]. destruct (Nat.lt_ge_cases k (j * s)) as [K|K]; [|lia].
    exfalso. rewrite <- (nth_firstn rows (j * s)) in N by exact K. rewrite (forallb_nth good _ _ _ G N) in F. discriminate. }
  destruct D as [(Ff & -> & D)|(k & K1 & K2 & K3 & -> & K5)]; cbn [Nat.add].
  - split; [lia|]. split; [lia|]. split; [lia|]. split; [exact After|]. exists (S (List.length rows)). split; [|lia]. right. auto.
  - split; [lia|]. split; [lia|]. split; [lia|]. split; [exact After|].
    destruct (forallb_false_nth _ _ K5) as (i & row & N & F). rewrite nth_skipn in N. apply nth_firstn_some in N.
    destruct N as (N & Li). exists (S (j * s + i)). split; [|lia]. left. exists (j * s + i), row. auto.
Qed.

(** The records that are named: from behind a multiple of the batch size of the command to the last record read. *)
Lemma named_spec : forall b n, (0 < b)%Z -> 0 < n ->
  exists k, (0 <= k /\ fst (named_records b n) = k * b + 1 /\ snd (named_records b n) = Z.of_nat n /\ k * b < Z.of_nat n <= k * b + b)%Z.
Proof.
  intros b n Hb Hn. exists ((Z.of_nat n + b - 1) / b - 1)%Z. unfold named_records.
  pose proof (Z.div_mod (Z.of_nat n + b - 1) b ltac:(lia)) as D. pose proof (Z.mod_pos_bound (Z.of_nat n + b - 1) b Hb) as M.
  set (q := ((Z.of_nat n + b - 1) / b)%Z) in *. assert (1 <= q)%Z by nia.
  destruct (q =? 0)%Z eqn:E; [lia|]. cbn [fst snd]. destruct (_ <? _)%Z eqn:F; nia.
Qed.

Definition named (b : Z) (n r : nat) : Prop := (fst (named_records b n) <= Z.of_nat r <= snd (named_records b n))%Z.

(** The claim: if a load fails, one of the records that are named is wrong. *)
Definition names_a_wrong_record : Prop :=
  forall (V : Type) (str : bytes -> V) bi good exec rows fails n,
  judges_records bi good exec -> (1 <= batch_size bi)%Z -> bi_columns bi <> [] -> (0 < bi_batchsize bi)%Z ->
  Forall (fun r => List.length r = List.length (bi_columns bi)) rows ->
  load_records str bi exec rows fails = LoadFailed n ->
  exists r, bad_record good rows fails r /\ named (bi_batchsize bi) n r.

(** It holds if the size of the batches divides the batch size of the command, for example if they are the same.  Then also
    no record before the first one named is wrong, and at most a batch of the command is named. *)
Theorem C116_partial : forall (V : Type) (str : bytes -> V) bi good exec rows fails n,
  judges_records bi good exec -> (1 <= batch_size bi)%Z -> bi_columns bi <> [] -> (0 < bi_batchsize bi)%Z ->
  Forall (fun r => List.length r = List.length (bi_columns bi)) rows ->
  load_records str bi exec rows fails = LoadFailed n ->
  (batch_size bi | bi_batchsize bi)%Z ->
  (exists r, bad_record good rows fails r /\ named (bi_batchsize bi) n r) /\
  (forall r, bad_record good rows fails r -> (fst (named_records (bi_batchsize bi) n) <= Z.of_nat r)%Z) /\
  (snd (named_records (bi_batchsize bi) n) - fst (named_records (bi_batchsize bi) n) < bi_batchsize bi)%Z.
Proof.
  intros V str bi good exec rows fails n J S1 C Hb W R (m & Dm).
  destruct (load_stops str bi good exec rows fails n J S1 C W R) as (j & J1 & J2 & J3 & A & (r & Br & R1 & R2)).
  destruct (named_spec (bi_batchsize bi) n Hb ltac:(lia)) as (k & K0 & Kf & Ks & K1 & K2).
  assert (Kj : (k * bi_batchsize bi <= Z.of_nat (j * Z.to_nat (batch_size bi)))%Z).
  { rewrite Dm in *. rewrite Nat2Z.inj_mul, Z2Nat.id by lia. assert (k * m < Z.of_nat j + 1)%Z by nia. nia. }
  split; [|split].
  - exists r. split; [exact Br|]. unfold named. lia.
  - intros r' B'. apply A in B'. lia.
  - lia.
Qed.
Print Assumptions C116_partial.

(** Whatever the sizes of the batches are: a wrong record is among the last ones read, as many as a statement has, and the
    last record named is the last one read. *)
Theorem C116_last : forall (V : Type) (str : bytes -> V) bi good exec rows fails n,
  judges_records bi good exec -> (1 <= batch_size bi)%Z -> bi_columns bi <> [] -> (0 < bi_batchsize bi)%Z ->
  Forall (fun r => List.length r = List.length (bi_columns bi)) rows ->
  load_records str bi exec rows fails = LoadFailed n ->
  exists r, bad_record good rows fails r /\
    (snd (named_records (bi_batchsize bi) n) - batch_size bi < Z.of_nat r <= snd (named_records (bi_batchsize bi) n))%Z.
Proof.
  intros V str bi good exec rows fails n J S1 C Hb W R.
  destruct (load_stops str bi good exec rows fails n J S1 C W R) as (j & J1 & J2 & J3 & A & (r & Br & R1 & R2)).
  destruct (named_spec (bi_batchsize bi) n Hb ltac:(lia)) as (k & K0 & Kf & Ks & K1 & K2).
  exists r. split; [exact Br|]. rewrite Ks. lia.
Qed.
Print Assumptions C116_last.

(** A record that cannot be read is named, and it is the last one named. *)
Theorem C116_unreadable : forall (V : Type) (str : bytes -> V) bi good exec rows n,
  judges_records bi good exec -> (1 <= batch_size bi)%Z -> bi_columns bi <> [] -> (0 < bi_batchsize bi)%Z ->
  Forall (fun r => List.length r = List.length (bi_columns bi)) rows ->
  Forall (fun r => good r = true) rows ->
  load_records str bi exec rows true = LoadFailed n ->
  named (bi_batchsize bi) n (S (List.length rows)) /\ snd (named_records (bi_batchsize bi) n) = Z.of_nat (S (List.length rows)).
Proof.
  intros V str bi good exec rows n J S1 C Hb W G R.
  destruct (load_stops str bi good exec rows true n J S1 C W R) as (j & J1 & J2 & J3 & A & (r & Br & R1 & R2)).
  destruct (named_spec (bi_batchsize bi) n Hb ltac:(lia)) as (k & K0 & Kf & Ks & K1 & K2).
  assert (r = S (List.length rows)) as ->.
  { destruct Br as [(i & row & _ & N & F)|(_ & ->)]; [|reflexivity]. rewrite Forall_forall in G.
    rewrite (G row (nth_error_In _ _ N)) in F. discriminate. }
  unfold named. lia.
Qed.
Print Assumptions C116_unreadable.

(** If nothing was read yet, for example because the table does not exist, the error is about the records 1 to 0. *)
Theorem C116_no_record : forall (V : Type) (str : bytes -> V) bi exec rows fails,
  List.length (key_columns bi) <= List.length (bi_columns bi) -> (0 < bi_batchsize bi)%Z ->
  exec (Prepare (insert_text bi (Z.to_nat (batch_size bi)))) = false ->
  load_records str bi exec rows fails = LoadFailed 0 /\ blame (named_records (bi_batchsize bi) 0) = B"record 1 to 0".
Proof.
  intros V str bi exec rows fails K Hb P. split.
  - unfold load_records. replace (_ <? _) with false by (symmetry; apply Nat.ltb_ge; exact K).
    destruct (bi_columns bi) as [|c cs]; [reflexivity|]. cbv zeta. rewrite !forallb_app. cbn [forallb]. rewrite P.
    cbn [andb]. rewrite andb_false_r. reflexivity.
  - unfold named_records. replace ((Z.of_nat 0 + bi_batchsize bi - 1) / bi_batchsize bi)%Z with 0%Z
      by (symmetry; apply Z.div_small; lia).
    cbn [Z.eqb]. replace ((1 - 1) * bi_batchsize bi)%Z with 0%Z by lia. cbn [Z.of_nat].
    replace (0 <? 0 + bi_batchsize bi)%Z with true by lia. reflexivity.
Qed.
Print Assumptions C116_no_record.

(** A load is successful exactly if the insertion of C31 makes all of its calls with success. *)
Lemma loop_loaded {V} (bi : batch_insert) (exec : call V -> bool) : forall rows fails counter acc read,
  (exists k, load_loop bi exec rows fails counter acc read = Loaded k) <->
  forallb exec (fst (batch_loop bi rows fails counter acc)) = true /\ snd (batch_loop bi rows fails counter acc) = Finished.
Proof.
  induction rows as [|r rows IH]; intros fails counter acc read; cbn [load_loop batch_loop].
  - destruct fails; cbn [fst snd].
    + split; [intros (k & H); discriminate|intros (_ & H); discriminate].
    + destruct (forallb exec _); split; [auto|intros _; eauto|intros (k & H); discriminate|intros (H & _); discriminate].
  - destruct (_ <=? _)%Z; [|apply IH]. specialize (IH fails 0 [] (S read)). destruct (batch_loop bi rows fails 0 []) as (cs & e).
    cbn [fst snd] in *. rewrite forallb_app. destruct (forallb exec (batch_calls _ _ _)); cbn [andb]; [exact IH|].
    split; [intros (k & H); discriminate|intros (H & _); discriminate].
Qed.
Theorem C116_loaded : forall (V : Type) (str : bytes -> V) bi exec rows fails,
  (exists k, load_records str bi exec rows fails = Loaded k) <->
  forallb exec (fst (batch_plan str bi rows fails)) = true /\ snd (batch_plan str bi rows fails) = Finished.
Proof.
  intros V str bi exec rows fails. unfold load_records, batch_plan.
  destruct (_ <? _); [split; [intros (k & H); discriminate|intros (_ & H); discriminate]|].
  destruct (bi_columns bi); [split; [intros (k & H); discriminate|intros (_ & H); discriminate]|].
  cbv zeta. set (before := _ ++ [Prepare _] ++ _).
  pose proof (loop_loaded bi exec rows fails 0 [] 0) as L.
  destruct (bi_batchsize bi <? 0)%Z.
  - cbn [fst snd]. destruct (forallb exec before); cbn [negb]; split; [intros (k & H); discriminate|intros (_ & H); discriminate
      |intros (k & H); discriminate|intros (_ & H); discriminate].
  - destruct (batch_loop bi rows fails 0 []) as (cs & e). cbn [fst snd] in L.
    destruct (load_loop bi exec rows fails 0 [] 0) as [k|k|].
    + destruct (proj1 L (ex_intro _ k eq_refl)) as (Lc & ->). cbn [fst snd]. rewrite (forallb_app exec before), (forallb_app exec cs), Lc.
      destruct (forallb exec before); cbn [negb andb].
      * destruct (forallb exec (identity_insert bi _ ++ setvals str bi)); split; [auto|eauto|intros (k' & H); discriminate|intros (H & _); discriminate].
      * split; [intros (k' & H); discriminate|intros (H & _); discriminate].
    + split; [destruct (forallb exec before); intros (k' & H); discriminate|]. intros (H & F). exfalso.
      destruct e; try discriminate. cbn [fst] in H. rewrite (forallb_app exec before), (forallb_app exec cs) in H.
      apply andb_prop in H. destruct H as (_ & H). apply andb_prop in H. destruct (proj2 L (conj (proj1 H) eq_refl)). discriminate.
    + split; [destruct (forallb exec before); intros (k' & H); discriminate|]. intros (H & F). exfalso.
      destruct e; try discriminate. cbn [fst] in H. rewrite (forallb_app exec before), (forallb_app exec cs) in H.
      apply andb_prop in H. destruct H as (_ & H). apply andb_prop in H. destruct (proj2 L (conj (proj1 H) eq_refl)). discriminate.
Qed.
Print Assumptions C116_loaded.

(** ** Refutation: SQLite, the usual batch size 1000 and 33 columns, so that a statement has 991 records; record 992 is
    refused and the error is about the records 1001 to 1982. *)
Definition wide_table : batch_insert :=
  {| bi_batchsize := load_batchsize 0; bi_dialect := SQLite; bi_schema := []; bi_table := B"t";
     bi_columns := map (fun i => B"c" ++ nat_dec i) (seq 0 33); bi_keys := []; bi_identity := [] |}.
Definition good_row (r : list bool) : bool := forallb id r.
Definition strict (c : call bool) : bool :=
  match c with Prepare _ => true | Exec t a => negb (has_prefix t (B"INSERT")) || forallb id a end.
Definition one_bad : list (list bool) := repeat (repeat true 33) 991 ++ [repeat false 33] ++ repeat (repeat true 33) 990.

Lemma forallb_concat {A} (f : A -> bool) : forall l, forallb f (List.concat l) = forallb (forallb f) l.
Proof. induction l as [|x l IH]; [reflexivity|]. cbn. rewrite forallb_app, IH. reflexivity. Qed.
Lemma strict_judges : forall bi, judges_records bi good_row strict.
Proof.
  intro bi. split; [|split].
  - intros rs _. cbn [strict]. rewrite insert_is_insert. cbn [negb orb]. apply forallb_concat.
  - reflexivity.
  - intros t a H. cbn [strict]. rewrite H. reflexivity.
Qed.
Example wide_batch : batch_size wide_table = 991%Z.
Proof. vm_compute. reflexivity. Qed.
Lemma second_batch {V} (str : bytes -> V) bi good exec a b :
  judges_records bi good exec -> bi_columns bi <> [] -> (1 <= batch_size bi)%Z ->
  (List.length (bi_columns bi) <? List.length (key_columns bi)) || (bi_batchsize bi <? 0)%Z = false ->
  Forall (fun r => List.length r = List.length (bi_columns bi)) a -> Forall (fun r => List.length r = List.length (bi_columns bi)) b ->
  Z.of_nat (List.length a) = batch_size bi -> Z.of_nat (List.length b) = batch_size bi ->
  forallb good a = true -> forallb good b = false ->
  load_records str bi exec (a ++ b) false = LoadFailed (List.length a + List.length b).
Proof.
  intros J C S1 K Wa Wb La Lb Ga Gb. rewrite (load_judged str bi good exec _ _ J C), K.
  assert (L := fun rs => loop_batch V bi good exec J S1 rs []). cbn [List.length List.concat app Nat.add] in L.
  rewrite L; [|constructor|exact Wa|intros ->; cbn in *; lia|exact La]. rewrite Ga. rewrite <- (app_nil_r b) at 1.
  rewrite L; [|constructor|exact Wb|intros ->; cbn in *; lia|exact Lb]. rewrite Gb. reflexivity.
Qed.
Example wide_fails : load_records (fun _ => true) wide_table strict one_bad false = LoadFailed 1982.
Proof.
  assert (W : forall n, Forall (fun r : list bool => List.length r = List.length (bi_columns wide_table)) (repeat (repeat true 33) n))
    by (intro n; apply Forall_forall; intros x Hx; apply repeat_spec in Hx; subst x; reflexivity).
  etransitivity.
  - apply (second_batch _ _ good_row); [apply strict_judges|discriminate|rewrite wide_batch; lia|vm_compute; reflexivity|apply W| | | | |].
    + constructor; [reflexivity|apply W].
    + rewrite wide_batch, repeat_length. reflexivity.
    + rewrite wide_batch, app_length, repeat_length. reflexivity.
    + apply forallb_forall. intros x Hx. apply repeat_spec in Hx. subst x. reflexivity.
    + reflexivity.
  - rewrite app_length, !repeat_length. reflexivity.
Qed.
Example wide_named : blame (named_records (bi_batchsize wide_table) 1982) = B"record 1001 to 1982".
Proof. vm_compute. reflexivity. Qed.
Lemma one_bad_only : forall r, bad_record good_row one_bad false r -> r = 992.
Proof.
  intros r [(k & row & -> & N & F)|(F & _)]; [|discriminate]. f_equal. unfold one_bad in N.
  destruct (Nat.lt_ge_cases k 991) as [K|K].
  - rewrite nth_error_app1 in N by (rewrite repeat_length; exact K). apply nth_error_In, repeat_spec in N. subst row. discriminate F.
  - rewrite nth_error_app2 in N by (rewrite repeat_length; exact K). rewrite repeat_length in N.
    destruct (k - 991) as [|i] eqn:E; [lia|]. cbn [app nth_error] in N. apply nth_error_In, repeat_spec in N. subst row. discriminate F.
Qed.
Theorem C116_refuted : ~ names_a_wrong_record.
Proof.
  intro H. destruct (H bool (fun _ => true) wide_table good_row strict one_bad false 1982) as (r & Br & N1 & _).
  - apply strict_judges.
  - rewrite wide_batch. lia.
  - discriminate.
  - reflexivity.
  - unfold one_bad. rewrite !Forall_app. split; [|split]; [|repeat constructor|]; apply Forall_forall; intros x Hx;
      apply repeat_spec in Hx; subst x; reflexivity.
  - exact wide_fails.
  - apply one_bad_only in Br. subst r. revert N1.
    replace (fst (named_records (bi_batchsize wide_table) 1982)) with 1001%Z by (vm_compute; reflexivity). lia.
Qed.
Print Assumptions C116_refuted.

(** ** Cases that meet the hypotheses *)
Definition small_table : batch_insert :=
  {| bi_batchsize := 3; bi_dialect := SQLite; bi_schema := []; bi_table := B"t"; bi_columns := [B"a"; B"b"]; bi_keys := [B"a"];
     bi_identity := [] |}.
Example small_fails :
  load_records (fun _ => true) small_table strict [[true;true];[true;true];[true;true];[true;true];[true;false]] false = LoadFailed 5 /\
  blame (named_records 3 5) = B"record 4 to 5" /\ (batch_size small_table | bi_batchsize small_table)%Z.
Proof. split; [reflexivity|]. split; [reflexivity|]. exists 1%Z. reflexivity. Qed.
Example small_unreadable :
  load_records (fun _ => true) small_table strict [[true;true];[true;true];[true;true]] true = LoadFailed 4 /\
  blame (named_records 3 4) = B"record 4".
Proof. split; reflexivity. Qed.
Example small_loads : load_records (fun _ => true) small_table strict [[true;true];[true;true];[true;true];[true;true]] false = Loaded 4.
Proof. reflexivity. Qed.
Example usual_sizes : load_batchsize 0 = 1000%Z /\ load_batchsize 7 = 7%Z.
Proof. split; reflexivity. Qed.
