(** Model of ddl/batch_insert.go:13-450. *)
From Verif Require Import GoStr ModelSq.

(** BatchInsert, lines 13-53. *)
Record batch_insert := {
  bi_batchsize : Z;
  bi_dialect : dialect;
  bi_schema : bytes;
  bi_table : bytes;
  bi_columns : list bytes;
  bi_keys : list bytes;
  bi_identity : list bytes
}.

(** Lines 96-106: the key columns are given up if one of them is not inserted. *)
Definition key_columns (bi : batch_insert) : list bytes :=
  if forallb (fun k => bmem k (bi_columns bi)) (bi_keys bi) then bi_keys bi else [].
(** Lines 111-117. *)
Definition non_key_columns (bi : batch_insert) : list bytes :=
  filter (fun x => negb (bmem x (key_columns bi))) (bi_columns bi).
(** Lines 118-124. *)
Definition identity_columns (bi : batch_insert) : list bytes :=
  filter (fun x => bmem x (bi_columns bi)) (bi_identity bi).

(** Lines 144-154; 0 means that there is no limit. *)
Definition param_limit (d : dialect) : Z :=
  match d with
  | SQLite => 32766 | Postgres => 65535 | MySQL => 65535 | SQLServer => 2100 | Other => 0
  end.
(** Lines 131-160 for a positive number of columns: the floor of the floating point
    quotient of two such integers is their integer quotient. *)
Definition batch_size (bi : batch_insert) : Z :=
  let n := if (bi_batchsize bi <=? 0)%Z then 500%Z else bi_batchsize bi in
  let n := if dialect_eqb (bi_dialect bi) SQLServer && (25 <? n)%Z then 25%Z else n in
  let limit := param_limit (bi_dialect bi) in
  if (0 <? limit)%Z then
    let most := (limit / Z.of_nat (List.length (bi_columns bi)) - 1)%Z in
    if (most <? n)%Z then most else n
  else n.

(** ** Statement texts *)
(** Lines 167-170. *)
Definition table_name (bi : batch_insert) : bytes :=
  (match bi_schema bi with [] => [] | s => quote_identifier (bi_dialect bi) s ++ B"." end)
  ++ quote_identifier (bi_dialect bi) (bi_table bi).
(** Lines 173-183. *)
Definition column_names (bi : batch_insert) : bytes :=
  join (B", ") (map (quote_identifier (bi_dialect bi)) (bi_columns bi)).

(** writeRowValues, lines 427-450; [k] is the counter before the row. *)
Definition placeholder (d : dialect) (k : nat) : bytes :=
  match d with
  | Postgres => B"$" ++ nat_dec k
  | SQLServer => B"@p" ++ nat_dec k
  | _ => B"?"
  end.
Definition row_values (d : dialect) (k fields : nat) : bytes :=
  B"(" ++ join (B", ") (map (fun j => placeholder d (k + S j)) (seq 0 fields)) ++ B")".
Definition rows_values (d : dialect) (rows fields : nat) : bytes :=
  join (B", ") (map (fun i => row_values d (i * fields) fields) (seq 0 rows)).

(** Lines 197-206. *)
Definition values_start (bi : batch_insert) : bytes :=
  match identity_columns bi, bi_dialect bi, key_columns bi with
  | _ :: _, Postgres, _ => B" OVERRIDING SYSTEM VALUE VALUES "
  | _, SQLServer, _ :: _ => B" SELECT " ++ column_names bi ++ B" FROM (VALUES "
  | _, _, _ => B" VALUES "
  end.
Definition insert_start (bi : batch_insert) : bytes :=
  B"INSERT INTO " ++ table_name bi ++ B" (" ++ column_names bi ++ B")" ++ values_start bi.

(** table.column = tmp_.column, lines 254-261 and 300-307. *)
Definition key_match (bi : batch_insert) : bytes :=
  let d := bi_dialect bi in
  join (B" AND ") (map (fun k => table_name bi ++ B"." ++ quote_identifier d k ++ B" = tmp_." ++ quote_identifier d k)
                       (key_columns bi)).

(** Lines 214-265. *)
Definition insert_end (bi : batch_insert) : bytes :=
  let d := bi_dialect bi in
  let q := quote_identifier d in
  match key_columns bi with
  | [] => []
  | k0 :: _ =>
      match d with
      | SQLite | Postgres =>
          B" ON CONFLICT (" ++ join (B", ") (map q (key_columns bi)) ++ B") " ++
          (match non_key_columns bi with
           | [] => B"DO NOTHING"
           | l => B"DO UPDATE SET " ++ join (B", ") (map (fun x => q x ++ B" = EXCLUDED." ++ q x) l)
           end)
      | MySQL =>
          B" ON DUPLICATE KEY UPDATE " ++
          (match non_key_columns bi with
           | [] => q k0 ++ B" = " ++ q k0
           | l => join (B", ") (map (fun x => q x ++ B" = VALUES(" ++ q x ++ B")") l)
           end)
      | SQLServer =>
          B") AS tmp_ (" ++ column_names bi ++ B") WHERE NOT EXISTS (SELECT 1 FROM "
          ++ table_name bi ++ B" WHERE " ++ key_match bi ++ B")"
      | Other => []
      end
  end.
Definition insert_text (bi : batch_insert) (rows : nat) : bytes :=
  insert_start bi ++ rows_values (bi_dialect bi) rows (List.length (bi_columns bi)) ++ insert_end bi.

(** Whether there is an UPDATE statement: line 277. *)
Definition has_update (bi : batch_insert) : bool :=
  match key_columns bi, non_key_columns bi, bi_dialect bi with
  | _ :: _, _ :: _, SQLServer => true
  | _, _, _ => false
  end.
(** The columns that it sets: lines 281-294. *)
Definition update_columns (bi : batch_insert) : list bytes :=
  filter (fun x => negb (bmem x (key_columns bi)) && negb (bmem x (identity_columns bi))) (bi_columns bi).
(** Lines 278-308. *)
Definition update_text (bi : batch_insert) (rows : nat) : bytes :=
  let q := quote_identifier (bi_dialect bi) in
  B"UPDATE " ++ table_name bi ++ B" WITH (UPDLOCK, SERIALIZABLE) SET "
  ++ join (B", ") (map (fun x => q x ++ B" = tmp_." ++ q x) (update_columns bi))
  ++ B" FROM " ++ table_name bi ++ B" JOIN (VALUES "
  ++ rows_values (bi_dialect bi) rows (List.length (bi_columns bi))
  ++ B") AS tmp_ (" ++ column_names bi ++ B") ON " ++ key_match bi.

(** ** ExecContext, lines 89-425 *)
(** Database calls.  Preparing a statement is a call of its own; executing a prepared
    statement sends its text with the arguments. *)
Inductive call {V : Type} :=
| Prepare (text : bytes)
| Exec (text : bytes) (args : list V).
Arguments call : clear implicits.

(** How it ends if no database call fails. *)
Inductive finish := Finished | Errored | Crashed.

(** The statements of one batch: lines 331-364 (a prepared statement with [rows] rows)
    and lines 369-401 (the rest). *)
Definition batch_calls {V} (bi : batch_insert) (rows : nat) (args : list V) : list (call V) :=
  (if has_update bi then [Exec (update_text bi rows) args] else []) ++ [Exec (insert_text bi rows) args].

(** The loop of lines 318-366 and the rest of lines 368-401.  [rows] is what the
    iterator delivers, [fails] whether it then returns an error instead of io.EOF;
    [counter] and [acc] are batchcounter and args. *)
Fixpoint batch_loop {V} (bi : batch_insert) (rows : list (list V)) (fails : bool) (counter : nat) (acc : list V)
  : list (call V) * finish :=
  match rows with
  | [] =>
      if fails then ([], Errored)
      else (match counter with O => [] | _ => batch_calls bi counter acc end, Finished)
  | r :: rows' =>
      let acc := acc ++ r in
      if (batch_size bi <=? Z.of_nat (S counter))%Z then
        let '(cs, e) := batch_loop bi rows' fails 0 [] in
        (batch_calls bi (Z.to_nat (batch_size bi)) acc ++ cs, e)
      else batch_loop bi rows' fails (S counter) acc
  end.

(** SET IDENTITY_INSERT, lines 185-191 and 403-409. *)
Definition identity_insert {V} (bi : batch_insert) (on : bytes) : list (call V) :=
  match identity_columns bi, bi_dialect bi with
  | _ :: _, SQLServer => [Exec (B"SET IDENTITY_INSERT " ++ table_name bi ++ on) []]
  | _, _ => []
  end.
(** setval, lines 411-423.  The two string arguments [str] wraps into values. *)
Definition setvals {V} (str : bytes -> V) (bi : batch_insert) : list (call V) :=
  match bi_dialect bi with
  | Postgres =>
      map (fun x => let q := quote_identifier Postgres x in
                    Exec (B"SELECT setval(pg_get_serial_sequence($1, $2), MAX(" ++ q ++ B")) FROM " ++ table_name bi)
                         [str (table_name bi); str q])
          (identity_columns bi)
  | _ => []
  end.

(** ExecContext when no database call fails.  The capacity of nonKeyColumns (line 111)
    and of args (line 319) must not be negative. *)
Definition batch_plan {V} (str : bytes -> V) (bi : batch_insert) (rows : list (list V)) (fails : bool)
  : list (call V) * finish :=
  if List.length (bi_columns bi) <? List.length (key_columns bi) then ([], Crashed)
  else match bi_columns bi with
  | [] => ([], Errored)
  | _ =>
      let n := Z.to_nat (batch_size bi) in
      let before := identity_insert bi (B" ON") ++ [Prepare (insert_text bi n)]
                    ++ (if has_update bi then [Prepare (update_text bi n)] else []) in
      if (bi_batchsize bi <? 0)%Z then (before, Crashed)
      else
        let '(cs, e) := batch_loop bi rows fails 0 [] in
        match e with
        | Finished => (before ++ cs ++ identity_insert bi (B" OFF") ++ setvals str bi, Finished)
        | _ => (before ++ cs, e)
        end
  end.

(** With database errors: every call whose error is reported ends the function, so the
    calls performed are the plan up to the first call that fails; [ok n] says whether
    the [n]-th call succeeds.  (The plan does not depend on the replies.) *)
Fixpoint cut_plan {V} (ok : nat -> bool) (cs : list (call V)) (e : finish) : list (call V) * finish :=
  match cs with
  | [] => ([], e)
  | c :: cs' =>
      if ok 0 then let '(done, e') := cut_plan (fun n => ok (S n)) cs' e in (c :: done, e')
      else ([c], Errored)
  end.
Definition batch_exec {V} (str : bytes -> V) (bi : batch_insert) (rows : list (list V)) (fails : bool) (ok : nat -> bool)
  : list (call V) * finish :=
  let '(cs, e) := batch_plan str bi rows fails in cut_plan ok cs e.
