(** Model of how a load that fails says which records are to blame: load_cmd.go:163-165 and 417-511, with the loop of
    ExecContext (batch_insert.go:318-401) stopped at the first error.

    Simplified: math.Ceil of the floating point quotient is taken as the ceiling of the quotient (the same below 2^52
    records); the error of the database and the times are left out of the text. *)
From Verif Require Import GoStr ModelSq ModelBatch.

(** load_cmd.go:163-165 *)
Definition load_batchsize (b : Z) : Z := if (b =? 0)%Z then 1000%Z else b.

(** How the insertion ends; [LoadFailed n]: with an error when recordNo is [n]. *)
Inductive ended := Loaded (records : nat) | LoadFailed (recordNo : nat) | LoadCrashed.
(** The loop; [read] is recordNo, which also counts a record that cannot be read (load_cmd.go:424-431). *)
Fixpoint load_loop {V} (bi : batch_insert) (exec : call V -> bool) (rows : list (list V)) (fails : bool) (counter : nat) (acc : list V) (read : nat) : ended :=
  match rows with
  | [] =>
      if fails then LoadFailed (S read)
      else if forallb exec (match counter with O => [] | _ => batch_calls bi counter acc end) then Loaded read else LoadFailed read
  | r :: rows' =>
      let acc := acc ++ r in
      if (batch_size bi <=? Z.of_nat (S counter))%Z then
        if forallb exec (batch_calls bi (Z.to_nat (batch_size bi)) acc) then load_loop bi exec rows' fails 0 [] (S read)
        else LoadFailed (S read)
      else load_loop bi exec rows' fails (S counter) acc (S read)
  end.
(** All calls: batch_insert.go:89-425. *)
Definition load_records {V} (str : bytes -> V) (bi : batch_insert) (exec : call V -> bool) (rows : list (list V)) (fails : bool) : ended :=
  if List.length (bi_columns bi) <? List.length (key_columns bi) then LoadCrashed
  else match bi_columns bi with
  | [] => LoadFailed 0
  | _ =>
      let n := Z.to_nat (batch_size bi) in
      let before := identity_insert bi (B" ON") ++ [Prepare (insert_text bi n)]
                    ++ (if has_update bi then [Prepare (update_text bi n)] else []) in
      if negb (forallb exec before) then LoadFailed 0
      else if (bi_batchsize bi <? 0)%Z then LoadCrashed
      else match load_loop bi exec rows fails 0 [] 0 with
           | Loaded k => if forallb exec (identity_insert bi (B" OFF") ++ setvals str bi) then Loaded k else LoadFailed k
           | e => e
           end
  end.

(** load_cmd.go:498-507: the first and the last record that are named. *)
Definition named_records (b : Z) (recordNo : nat) : Z * Z :=
  let n := Z.of_nat recordNo in
  let no := ((n + b - 1) / b)%Z in
  let no := if (no =? 0)%Z then 1%Z else no in
  let offset := ((no - 1) * b)%Z in
  (offset + 1, if (n <? offset + b)%Z then n else offset + b)%Z.
(** load_cmd.go:519-522 *)
Definition blame (r : Z * Z) : bytes :=
  if (fst r =? snd r)%Z then B"record " ++ Z_dec (fst r) else B"record " ++ Z_dec (fst r) ++ B" to " ++ Z_dec (snd r).
