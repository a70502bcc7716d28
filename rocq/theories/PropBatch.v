(** Properties C31-C33, C56 and C57: batch inserts. *)
From Verif Require Import GoStr ModelSq SpecSql ModelBatch SpecInsert BatchText BatchFacts BatchUpsert BatchWitness.

(** ** C31 *)
(** However the batch insert ends, the rows that were sent (with the statement that
    failed) are the first rows of the iterator; if it succeeds, they are all rows.  The
    statements name the table and the columns, and have as many parameters as
    arguments.  Missing from the full statement: tables with more columns than half of the
    parameter limit, negative batch sizes, repeated keys (see below), and identity
    columns that are not keys on SQL Server. *)
Theorem C31_delivery_partial : forall (V : Type) (str : bytes -> V) bi (rows : list (list V)) fails ok cs e,
  usable bi -> identities_are_keys bi ->
  Forall (fun r => List.length r = width bi) rows ->
  batch_exec str bi rows fails ok = (cs, e) ->
  e <> Crashed
  /\ (exists rest, map (map Some) rows = delivered (bi_dialect bi) (execs cs) ++ rest /\ (e = Finished -> rest = []))
  /\ (fails = false -> (forall n, ok n = true) -> e = Finished)
  /\ Forall (fits (bi_dialect bi) (dens bi (path_of bi)) (dens bi (bi_columns bi))) (execs cs).
Proof.
  intros V str bi rows fails ok cs e Hu Hi Hw E.
  destruct (batch_exec_delivers str bi rows fails ok cs e Hu (identities_updatable bi Hi) Hw E) as (H1 & H2 & H3 & H4 & _).
  exact (conj H1 (conj H2 (conj H3 H4))).
Qed.
Print Assumptions C31_delivery_partial.

Example C31_hypotheses : usable (films SQLServer) /\ identities_are_keys (films SQLServer)
  /\ Forall (fun r => List.length r = width (films SQLServer)) three_films.
Proof. split; [exact (films_usable SQLServer)|]. split; [intros _ x []|exact (three_films_width SQLServer)]. Qed.
Example C31_example : fst (batch_plan (fun x => x) (films Postgres) [map B ["1"; "a"; "b"]; map B ["2"; "c"; "d"]; map B ["3"; "e"; "f"]]%string false)
  = [Prepare (B"INSERT INTO app.film (film_id, title, ""Year"") VALUES ($1, $2, $3), ($4, $5, $6) ON CONFLICT (film_id) DO UPDATE SET title = EXCLUDED.title, ""Year"" = EXCLUDED.""Year""");
     Exec (B"INSERT INTO app.film (film_id, title, ""Year"") VALUES ($1, $2, $3), ($4, $5, $6) ON CONFLICT (film_id) DO UPDATE SET title = EXCLUDED.title, ""Year"" = EXCLUDED.""Year""") (map B ["1"; "a"; "b"; "2"; "c"; "d"]%string);
     Exec (B"INSERT INTO app.film (film_id, title, ""Year"") VALUES ($1, $2, $3) ON CONFLICT (film_id) DO UPDATE SET title = EXCLUDED.title, ""Year"" = EXCLUDED.""Year""") (map B ["3"; "e"; "f"]%string)].
Proof. exact films_calls. Qed.

Theorem C31_prepared_partial : forall (V : Type) (str : bytes -> V) bi (rows : list (list V)) fails ok cs e,
  usable bi -> identities_are_keys bi -> batch_exec str bi rows fails ok = (cs, e) ->
  Forall (fun text => read_statement (bi_dialect bi) text <> None) (prepared cs).
Proof. intros V. exact batch_exec_prepares. Qed.
Print Assumptions C31_prepared_partial.

(** A negative batch size is documented to mean 500, but ends in a panic. *)
Theorem C31_refuted_batchsize : exists bi (rows : list (list nat)),
  (bi_batchsize bi < 0)%Z /\ rows <> [] /\ Forall (fun r => List.length r = width bi) rows
  /\ snd (batch_plan (fun _ => 0) bi rows false) = Crashed
  /\ execs (fst (batch_plan (fun _ => 0) bi rows false)) = [].
Proof.
  exists {| bi_batchsize := -1; bi_dialect := SQLite; bi_schema := []; bi_table := B"t"; bi_columns := [B"a"]; bi_keys := []; bi_identity := [] |}, [[1]; [2]].
  repeat split; try discriminate. repeat constructor.
Qed.
Print Assumptions C31_refuted_batchsize.

(** A key column given twice ends in a panic. *)
Theorem C31_refuted_repeated_key : exists bi (rows : list (list nat)),
  (0 <= bi_batchsize bi)%Z /\ rows <> [] /\ snd (batch_plan (fun _ => 0) bi rows false) = Crashed.
Proof.
  exists {| bi_batchsize := 0; bi_dialect := SQLite; bi_schema := []; bi_table := B"t"; bi_columns := [B"a"]; bi_keys := [B"a"; B"a"]; bi_identity := [] |}, [[1]; [2]].
  repeat split; discriminate.
Qed.
Print Assumptions C31_refuted_repeated_key.

(** With 1051 columns a SQL Server batch insert sends a statement without rows. *)
Theorem C31_refuted_columns : exists bi (row : list nat) text,
  (Z.of_nat (width bi) <= parameter_limit (bi_dialect bi))%Z /\ List.length row = width bi
  /\ In (text, row) (execs (fst (batch_plan (fun _ => 0) bi [row] false)))
  /\ read_statement (bi_dialect bi) text = None.
Proof.
  destruct wide_sends_nonsense as (text & H1 & H2). exists wide, wide_row, text.
  split; [vm_compute; discriminate|]. split; [vm_compute; reflexivity|]. split; [exact H1|exact H2].
Qed.
Print Assumptions C31_refuted_columns.

(** ** C32 *)
(** Every INSERT or UPDATE that is sent has at least one row and no more arguments than
    the database allows.  Missing from the full statement: as in C31. *)
Theorem C32_limits_partial : forall (V : Type) (str : bytes -> V) bi (rows : list (list V)) fails ok cs e s n,
  usable bi -> identities_are_keys bi -> bi_dialect bi <> Other ->
  Forall (fun r => List.length r = width bi) rows ->
  batch_exec str bi rows fails ok = (cs, e) -> In s (execs cs) -> row_count (bi_dialect bi) s = Some n ->
  0 < n /\ (Z.of_nat (List.length (snd s)) <= parameter_limit (bi_dialect bi))%Z.
Proof. intros V. exact batch_exec_limits. Qed.
Print Assumptions C32_limits_partial.

(** Every statement sent is one of these, or changes no rows (C31: it can be read). *)
Example C32_example :
  let '(cs, e) := batch_exec (fun x => x) (films SQLServer) [map B ["1"; "a"; "b"]%string] false (fun _ => true) in
  e = Finished /\ map (row_count SQLServer) (execs cs) = [Some 1; Some 1].
Proof. vm_compute. split; reflexivity. Qed.

Theorem C32_refuted : exists bi (row : list nat) text,
  (Z.of_nat (width bi) <= parameter_limit (bi_dialect bi))%Z /\ List.length row = width bi
  /\ In (text, row) (execs (fst (batch_plan (fun _ => 0) bi [row] false)))
  /\ row_count (bi_dialect bi) (text, row) = None.
Proof.
  destruct wide_sends_nonsense as (text & H1 & H2). exists wide, wide_row, text.
  split; [vm_compute; discriminate|]. split; [vm_compute; reflexivity|]. split; [exact H1|].
  unfold row_count. change (read_statement (bi_dialect wide) (fst (text, wide_row))) with (read_statement SQLServer text). rewrite H2. reflexivity.
Qed.
Print Assumptions C32_refuted.

(** ** C33 *)
(** The table afterwards: every row with the key of an incoming row has taken over the
    other inserted columns, the incoming rows without counterpart are added, and
    nothing else has changed.  Missing from the full statement: SQL Server identity
    columns outside the key, names that quoting does not preserve (C02), and the
    configurations of C31. *)
Theorem C33_upsert_partial : forall str bi sc (rows : list (list val)) t,
  usable bi -> bi_dialect bi <> Other -> names_readable bi ->
  bi_keys bi <> [] -> incl (bi_keys bi) (bi_columns bi) -> sc_path sc = path_of bi -> sc_key sc = bi_keys bi ->
  identities_are_keys bi -> Forall (fun r => List.length r = width bi) rows ->
  distinct (bi_keys bi) (map (incoming bi (sc_default sc)) rows) ->
  exists cs t', batch_plan str bi rows false = (cs, Finished)
    /\ run sc (bi_dialect bi) (execs cs) t = Some t'
    /\ same_table t' (upserted (bi_keys bi) (filter (fun x => negb (bmem x (bi_keys bi))) (bi_columns bi))
                               (map (incoming bi (sc_default sc)) rows) t).
Proof. exact configured_upsert. Qed.
Print Assumptions C33_upsert_partial.

(** Without keys the rows are appended to the table. *)
Theorem C33_insert : forall str bi sc (rows : list (list val)) t,
  usable bi -> names_readable bi ->
  sc_path sc = path_of bi -> sc_key sc = [] -> bi_keys bi = [] -> Forall (fun r => List.length r = width bi) rows ->
  exists cs, batch_plan str bi rows false = (cs, Finished)
    /\ run sc (bi_dialect bi) (execs cs) t = Some (t ++ map (incoming bi (sc_default sc)) rows).
Proof. exact batch_is_append. Qed.
Print Assumptions C33_insert.

Example C33_hypotheses : forall d, d <> Other -> usable (films d) /\ names_readable (films d)
  /\ bi_keys (films d) <> [] /\ incl (bi_keys (films d)) (bi_columns (films d))
  /\ sc_path films_schema = path_of (films d) /\ sc_key films_schema = bi_keys (films d)
  /\ identities_are_keys (films d) /\ Forall (fun r => List.length r = width (films d)) three_films
  /\ distinct (bi_keys (films d)) (map (incoming (films d) (sc_default films_schema)) three_films).
Proof.
  intros d Hd. split; [exact (films_usable d)|]. split; [exact (films_readable d Hd)|]. split; [discriminate|].
  split; [intros x [<-|[]]; left; reflexivity|]. split; [reflexivity|]. split; [reflexivity|]. split; [intros _ x []|].
  split; [exact (three_films_width d)|exact (three_films_distinct d)].
Qed.
(** Film 2 exists; it takes over title and year, the language stays. *)
Example C33_example :
  let old := assign (map B ["film_id"; "title"; "Year"; "lang"]%string) [v "2"; v "x"; v "1900"; v "en"] (fun _ => None) in
  map (fun d => match run films_schema d (execs (fst (batch_plan v' (films d) three_films false))) [old] with
                | Some t => map (fun r => map r (map B ["film_id"; "title"; "Year"; "lang"]%string)) t
                | None => []
                end) [SQLite; Postgres; MySQL; SQLServer]
  = List.repeat [[v "2"; v "Brazil"; None; v "en"]; [v "1"; v "Alien"; v "1979"; None]; [v "3"; v "Cube"; v "1997"; None]] 4.
Proof. vm_compute. reflexivity. Qed.

(** SQL Server does not take over an identity column. *)
Theorem C33_refuted_identity : exists bi sc (rows : list (list val)) t,
  usable bi /\ incl (bi_keys bi) (bi_columns bi) /\ sc_key sc = bi_keys bi /\ sc_path sc = path_of bi
  /\ distinct (bi_keys bi) (map (incoming bi (sc_default sc)) rows)
  /\ exists cs t', batch_plan v' bi rows false = (cs, Finished) /\ run sc (bi_dialect bi) (execs cs) t = Some t'
  /\ ~ same_table t' (upserted (bi_keys bi) (filter (fun x => negb (bmem x (bi_keys bi))) (bi_columns bi))
                               (map (incoming bi (sc_default sc)) rows) t).
Proof.
  exists users, users_schema, [[v "a"; v "2"; v "new"]], [user "a" "1" "old"].
  split; [split; [discriminate|vm_compute; discriminate|vm_compute; lia|right; vm_compute; discriminate]|].
  split; [intros x [<-|[]]; left; reflexivity|]. split; [reflexivity|]. split; [reflexivity|]. split; [repeat constructor|].
  exists (fst (batch_plan v' users [[v "a"; v "2"; v "new"]] false)).
  destruct (run users_schema (bi_dialect users) (execs (fst (batch_plan v' users [[v "a"; v "2"; v "new"]] false))) [user "a" "1" "old"]) as [t'|] eqn:E; [|vm_compute in E; discriminate].
  exists t'. split; [vm_compute; reflexivity|]. split; [reflexivity|].
  vm_compute in E. injection E as <-.
  intros H. inversion H as [|x y l1 l2 H1 H2]; subst. specialize (H1 (B"id")). vm_compute in H1. discriminate.
Qed.
Print Assumptions C33_refuted_identity.

(** If there is no other column, the UPDATE has nothing to set and is not SQL. *)
Theorem C33_refuted_only_identity : exists bi sc (rows : list (list val)) t,
  usable bi /\ incl (bi_keys bi) (bi_columns bi) /\ sc_key sc = bi_keys bi /\ sc_path sc = path_of bi
  /\ distinct (bi_keys bi) (map (incoming bi (sc_default sc)) rows)
  /\ run sc (bi_dialect bi) (execs (fst (batch_plan v' bi rows false))) t = None.
Proof.
  exists only_ids, users_schema, [[v "a"; v "2"]], [].
  split; [split; [discriminate|vm_compute; discriminate|vm_compute; lia|right; vm_compute; discriminate]|].
  split; [intros x [<-|[]]; left; reflexivity|]. repeat (split; [reflexivity|]). split; [repeat constructor|]. vm_compute. reflexivity.
Qed.
Print Assumptions C33_refuted_only_identity.

(** ** C56 *)
(** Each sequence is looked up for the right table, and under the right column if the
    column name needs no quotes. *)
Theorem C56_sequences_partial : forall bi (rows : list (list bytes)),
  usable bi -> bi_dialect bi = Postgres -> names_readable bi ->
  Forall (fun x => needs_quoting Postgres x = false) (identity_columns bi) ->
  exists cs, batch_plan (fun x => x) bi rows false = (cs, Finished)
    /\ sequences (execs cs) = map (fun x => Some (path_of bi, x)) (filter (fun x => bmem x (bi_columns bi)) (bi_identity bi)).
Proof. exact batch_sequences_plain. Qed.
Print Assumptions C56_sequences_partial.

Example C56_example :
  let '(cs, e) := batch_plan (fun x => x) ids [[B"1"]] false in
  e = Finished /\ sequences (execs cs) = [Some ([B"My Table"], B"id")].
Proof. vm_compute. split; reflexivity. Qed.

(** Otherwise the quotes become part of the column name: there is no such column. *)
Theorem C56_refuted : exists bi (rows : list (list bytes)) cs,
  usable bi /\ names_readable bi /\ bi_dialect bi = Postgres
  /\ batch_plan (fun x => x) bi rows false = (cs, Finished)
  /\ bi_identity bi = bi_columns bi
  /\ sequences (execs cs) <> map (fun x => Some (path_of bi, x)) (bi_identity bi).
Proof.
  exists order_ids, [[B"1"]], (fst (batch_plan (fun x => x) order_ids [[B"1"]] false)).
  split; [split; [discriminate|vm_compute; discriminate|vm_compute; lia|right; vm_compute; discriminate]|].
  split; [repeat (constructor; [vm_compute; reflexivity|]); constructor|]. split; [reflexivity|]. split; [vm_compute; reflexivity|].
  split; [reflexivity|]. vm_compute. discriminate.
Qed.
Print Assumptions C56_refuted.

(** ** C57 *)
(** After a successful batch insert IDENTITY_INSERT is off. *)
Theorem C57_identity_insert_partial : forall (V : Type) (str : bytes -> V) bi (rows : list (list V)) cs,
  usable bi -> batch_plan str bi rows false = (cs, Finished) -> identity_on (bi_dialect bi) (execs cs) = [].
Proof. intros V. exact identity_off_at_end. Qed.
Print Assumptions C57_identity_insert_partial.

Example C57_example :
  let '(cs, e) := batch_plan v' users [[v "a"; v "2"; v "new"]] false in
  e = Finished /\ identity_on SQLServer (firstn 2 (execs cs)) = [[B"users"]] /\ identity_on SQLServer (execs cs) = [].
Proof. vm_compute. repeat split; reflexivity. Qed.

(** After an error (here: the first INSERT or UPDATE fails) it stays on, and SQL Server
    then refuses it for every other table of the session. *)
Theorem C57_refuted : exists bi (rows : list (list val)) ok cs e,
  usable bi /\ batch_exec v' bi rows false ok = (cs, e) /\ e = Errored
  /\ identity_on (bi_dialect bi) (execs cs) <> [].
Proof.
  exists users, [[v "a"; v "2"; v "new"]], (fun n => n <? 3), (fst (batch_exec v' users [[v "a"; v "2"; v "new"]] false (fun n => n <? 3))), Errored.
  split; [split; [discriminate|vm_compute; discriminate|vm_compute; lia|right; vm_compute; discriminate]|].
  split; [vm_compute; reflexivity|]. split; [reflexivity|]. vm_compute. discriminate.
Qed.
Print Assumptions C57_refuted.
