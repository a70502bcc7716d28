(** Sequences and identity columns of batch inserts; concrete batch inserts. *)
From Verif Require Import GoStr GoStrFacts ModelSq SpecSql SqFacts ModelBatch SpecInsert BatchText BatchFacts BatchUpsert.
From Coq Require Import ZifyBool ZifyNat.

(** ** Sequences *)
Lemma not_sequence (l : list (bytes * list bytes)) : (forall s, In s l -> strip_prefix (B"SELECT setval(pg_get_serial_sequence($1, $2), ") (fst s) = None) ->
  sequences l = [].
Proof.
  induction l as [|s l IH]; intros H; [reflexivity|]. cbn [sequences flat_map]. rewrite (H s) by (left; reflexivity).
  apply IH. intros x Hx. apply H. right. exact Hx.
Qed.
Lemma sequences_app a b : sequences (a ++ b) = sequences a ++ sequences b.
Proof. apply flat_map_app. Qed.
Lemma table_sequence bi c : bi_dialect bi = Postgres ->
  serial_sequence (table_name bi) c = Some (map (denoted Postgres) (path_of bi), c).
Proof.
  intros Hd. unfold serial_sequence. rewrite <- (app_nil_r (table_name bi)), <- Hd, read_table by (exact I || reflexivity). reflexivity.
Qed.
Lemma setvals_sequences bi : bi_dialect bi = Postgres ->
  sequences (execs (setvals (fun x => x) bi))
  = map (fun x => Some (map (denoted Postgres) (path_of bi), quote_identifier Postgres x)) (identity_columns bi).
Proof.
  intros Hd. unfold setvals. rewrite Hd. induction (identity_columns bi) as [|x l IH]; [reflexivity|].
  assert (H : forall r, strip_prefix (B"SELECT setval(pg_get_serial_sequence($1, $2), ") (B"SELECT setval(pg_get_serial_sequence($1, $2), MAX(" ++ r) = Some (B"MAX(" ++ r)) by reflexivity.
  cbn [map execs flat_map app sequences fst snd]. rewrite H. rewrite table_sequence by exact Hd.
  cbn [app]. f_equal. exact IH.
Qed.
Lemma setvals_none {V} str bi : bi_dialect bi <> Postgres -> @setvals V str bi = [].
Proof. unfold setvals. destruct (bi_dialect bi); congruence. Qed.

Lemma batch_calls_text {V} bi n (args : list V) s : In s (execs (batch_calls bi n args)) ->
  has_prefix (fst s) (B"INSERT INTO ") = true \/ has_prefix (fst s) (B"UPDATE ") = true.
Proof.
  unfold batch_calls. rewrite execs_app, in_app_iff. intros [H|H].
  - destruct (has_update bi); [|destruct H]. destruct H as [<-|[]]. right. reflexivity.
  - destruct H as [<-|[]]. left. reflexivity.
Qed.

(** The sequences that a complete batch insert sets. *)
Lemma batch_sequences bi (rows : list (list bytes)) : usable bi -> bi_dialect bi = Postgres ->
  exists cs, batch_plan (fun x => x) bi rows false = (cs, Finished)
    /\ sequences (execs cs) = map (fun x => Some (map (denoted Postgres) (path_of bi), quote_identifier Postgres x)) (identity_columns bi).
Proof.
  intros Hu Hd. destruct (batch_plan_chunks (fun x => x) bi rows false Hu) as (chunks & rest & _ & _ & Hp & _).
  eexists. split; [exact Hp|]. rewrite !execs_app, !sequences_app, execs_flat_map.
  rewrite (not_sequence (execs (before_calls bi))).
  2:{ rewrite before_execs. unfold identity_insert. rewrite Hd. destruct (identity_columns bi); intros s []. }
  rewrite (not_sequence (flat_map _ chunks)).
  2:{ intros s Hs. apply in_flat_map in Hs as (ch & _ & Hs). apply batch_calls_text in Hs as [H|H];
      apply has_prefix_iff in H as (r & ->); reflexivity. }
  cbn [app]. unfold after_calls. rewrite execs_app, sequences_app.
  replace (sequences (execs (identity_insert bi (B" OFF")))) with (@nil (option (list bytes * bytes))).
  2:{ unfold identity_insert. rewrite Hd. destruct (identity_columns bi); reflexivity. }
  apply setvals_sequences. exact Hd.
Qed.
Lemma batch_sequences_plain bi (rows : list (list bytes)) : usable bi -> bi_dialect bi = Postgres ->
  names_readable bi -> Forall (fun x => needs_quoting Postgres x = false) (identity_columns bi) ->
  exists cs, batch_plan (fun x => x) bi rows false = (cs, Finished)
    /\ sequences (execs cs) = map (fun x => Some (path_of bi, x)) (identity_columns bi).
Proof.
  intros Hu Hd Hr Hq. destruct (batch_sequences bi rows Hu Hd) as (cs & Hp & Hs). exists cs. split; [exact Hp|].
  rewrite Hs. apply map_ext_in. intros x Hx. rewrite Forall_forall in Hq. unfold quote_identifier. rewrite (Hq x Hx).
  pose proof (dens_id bi (path_of bi) Hr) as Hden. unfold dens, den in Hden. rewrite Hd in Hden. rewrite Hden; [reflexivity|].
  intros y Hy. apply in_or_app. left. exact Hy.
Qed.

(** ** IDENTITY_INSERT *)
Lemma read_identity_on bi : read_identity (bi_dialect bi) (B"SET IDENTITY_INSERT " ++ table_name bi ++ B" ON") = Some (dens bi (path_of bi), true).
Proof.
  unfold read_identity. rewrite strip_prefix_app. cbn [andthen]. rewrite read_table by (delim || reflexivity). reflexivity.
Qed.
Lemma read_identity_off bi : read_identity (bi_dialect bi) (B"SET IDENTITY_INSERT " ++ table_name bi ++ B" OFF") = Some (dens bi (path_of bi), false).
Proof.
  unfold read_identity. rewrite strip_prefix_app. cbn [andthen]. rewrite read_table by (delim || reflexivity). reflexivity.
Qed.
Lemma identity_other {V} d (l : list (bytes * list V)) : (forall s, In s l -> read_identity d (fst s) = None) -> forall on,
  fold_left (fun on s => match read_identity d (fst s) with
                         | Some (p, true) => p :: on
                         | Some (p, false) => filter (fun q => negb (lists_eqb q p)) on
                         | None => on
                         end) l on = on.
Proof.
  induction l as [|s l IH]; intros H on; [reflexivity|]. cbn [fold_left]. rewrite (H s) by (left; reflexivity).
  apply IH. intros x Hx. apply H. right. exact Hx.
Qed.
Lemma identity_off_at_end {V} str bi (rows : list (list V)) cs : usable bi ->
  batch_plan str bi rows false = (cs, Finished) -> identity_on (bi_dialect bi) (execs cs) = [].
Proof.
  intros Hu E. destruct (batch_plan_chunks str bi rows false Hu) as (chunks & rest & _ & _ & Hp & _).
  rewrite Hp in E. injection E as <-. unfold after_calls. rewrite !execs_app, before_execs, execs_flat_map.
  unfold identity_on. rewrite !fold_left_app.
  assert (Hm : forall on, fold_left (fun on (s : bytes * list V) => match read_identity (bi_dialect bi) (fst s) with
                         | Some (p, true) => p :: on
                         | Some (p, false) => filter (fun q => negb (lists_eqb q p)) on
                         | None => on
                         end) (flat_map (fun ch => execs (batch_calls bi (List.length ch) (concat ch))) chunks) on = on).
  { apply identity_other. intros s Hs. apply in_flat_map in Hs as (ch & _ & Hs). apply batch_calls_text in Hs as [H|H];
      apply has_prefix_iff in H as (r & ->); reflexivity. }
  rewrite Hm.
  assert (Hz : forall on, fold_left (fun on (s : bytes * list V) => match read_identity (bi_dialect bi) (fst s) with
                         | Some (p, true) => p :: on
                         | Some (p, false) => filter (fun q => negb (lists_eqb q p)) on
                         | None => on
                         end) (execs (setvals str bi)) on = on).
  { apply identity_other. unfold setvals. destruct (bi_dialect bi); try (intros s []; fail).
    induction (identity_columns bi) as [|x l IH]; [intros s []|]. intros s [<-|H]; [reflexivity|apply IH; exact H]. }
  rewrite Hz. unfold identity_insert. destruct (identity_columns bi); [reflexivity|].
  destruct (bi_dialect bi) eqn:Ed; try reflexivity. cbn [execs flat_map app fold_left fst]. rewrite <- Ed.
  rewrite read_identity_on, read_identity_off. cbn [filter]. rewrite lists_eqb_refl. reflexivity.
Qed.

(** ** Batch inserts *)
Definition films (d : dialect) : batch_insert := {|
  bi_batchsize := 2; bi_dialect := d; bi_schema := B"app"; bi_table := B"film";
  bi_columns := map B ["film_id"; "title"; "Year"]%string; bi_keys := [B"film_id"]; bi_identity := [] |}.
Lemma films_usable d : usable (films d).
Proof. split; [discriminate|cbn; lia|cbn; lia|]. destruct d; auto; right; vm_compute; discriminate. Qed.
Lemma films_readable d : d <> Other -> names_readable (films d).
Proof. intros H. unfold names_readable. destruct d; try congruence; repeat (constructor; [vm_compute; reflexivity|]); constructor. Qed.
Definition films_schema : schema := {| sc_path := map B ["app"; "film"]%string; sc_key := [B"film_id"]; sc_default := fun _ => None |}.
Lemma films_target d : target (films d) films_schema.
Proof. split; [reflexivity|reflexivity|discriminate]. Qed.
Definition v (s : String.string) : val := Some (B s).
Definition three_films : list (list val) :=
  [[v "1"; v "Alien"; v "1979"]; [v "2"; v "Brazil"; None]; [v "3"; v "Cube"; v "1997"]].
Lemma three_films_width d : Forall (fun r => List.length r = width (films d)) three_films.
Proof. repeat constructor. Qed.
Lemma three_films_distinct d : distinct (key_columns (films d)) (map (incoming (films d) (sc_default films_schema)) three_films).
Proof. repeat constructor. Qed.

(** One batch and a rest. *)
Lemma films_calls : fst (batch_plan (fun x => x) (films Postgres) [map B ["1"; "a"; "b"]; map B ["2"; "c"; "d"]; map B ["3"; "e"; "f"]]%string false)
  = [Prepare (B"INSERT INTO app.film (film_id, title, ""Year"") VALUES ($1, $2, $3), ($4, $5, $6) ON CONFLICT (film_id) DO UPDATE SET title = EXCLUDED.title, ""Year"" = EXCLUDED.""Year""");
     Exec (B"INSERT INTO app.film (film_id, title, ""Year"") VALUES ($1, $2, $3), ($4, $5, $6) ON CONFLICT (film_id) DO UPDATE SET title = EXCLUDED.title, ""Year"" = EXCLUDED.""Year""") (map B ["1"; "a"; "b"; "2"; "c"; "d"]%string);
     Exec (B"INSERT INTO app.film (film_id, title, ""Year"") VALUES ($1, $2, $3) ON CONFLICT (film_id) DO UPDATE SET title = EXCLUDED.title, ""Year"" = EXCLUDED.""Year""") (map B ["3"; "e"; "f"]%string)].
Proof. vm_compute. reflexivity. Qed.

(** Too many columns for SQL Server. *)
Definition wide : batch_insert := {|
  bi_batchsize := 0; bi_dialect := SQLServer; bi_schema := []; bi_table := B"t";
  bi_columns := map (fun k => B"c" ++ nat_dec k) (seq 1 1051); bi_keys := []; bi_identity := [] |}.
Definition wide_row : list nat := List.repeat 7 1051.
Lemma wide_sends_nonsense : exists text, In (text, wide_row) (execs (fst (batch_plan (fun _ => 0) wide [wide_row] false)))
  /\ read_statement SQLServer text = None.
Proof. exists (insert_text wide 0). split; [vm_compute; auto|vm_compute; reflexivity]. Qed.

(** A column that is an identity but not the key, on SQL Server. *)
Definition users : batch_insert := {|
  bi_batchsize := 0; bi_dialect := SQLServer; bi_schema := []; bi_table := B"users";
  bi_columns := map B ["email"; "id"; "name"]%string; bi_keys := [B"email"]; bi_identity := [B"id"] |}.
Definition users_schema : schema := {| sc_path := [B"users"]; sc_key := [B"email"]; sc_default := fun _ => None |}.
Definition user (email id name : String.string) : trow := incoming users (fun _ => None) [v email; v id; v name].
Definition only_ids : batch_insert := {|
  bi_batchsize := 0; bi_dialect := SQLServer; bi_schema := []; bi_table := B"users";
  bi_columns := map B ["email"; "id"]%string; bi_keys := [B"email"]; bi_identity := [B"id"] |}.
Definition v' (s : bytes) : val := Some s.

(** Identity columns on Postgres. *)
Definition ids : batch_insert := {|
  bi_batchsize := 0; bi_dialect := Postgres; bi_schema := []; bi_table := B"My Table";
  bi_columns := [B"id"]; bi_keys := []; bi_identity := [B"id"; B"other"] |}.
Definition order_ids : batch_insert := {|
  bi_batchsize := 0; bi_dialect := Postgres; bi_schema := []; bi_table := B"t";
  bi_columns := [B"Order"]; bi_keys := []; bi_identity := [B"Order"] |}.
