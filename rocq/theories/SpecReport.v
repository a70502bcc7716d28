(** What the error of a failed load should tell: which records of the file can be the reason. *)
From Verif Require Import GoStr ModelSq ModelBatch.

(** A database that refuses an INSERT statement exactly if it refuses one of its records, and refuses nothing else. *)
Definition judges_records {V} (bi : batch_insert) (good : list V -> bool) (exec : call V -> bool) : Prop :=
  (forall rs, Forall (fun r => List.length r = List.length (bi_columns bi)) rs ->
     exec (Exec (insert_text bi (List.length rs)) (List.concat rs)) = forallb good rs) /\
  (forall text, exec (Prepare text) = true) /\
  (forall text args, has_prefix text (B"INSERT") = false -> exec (Exec text args) = true).

(** Record number [r], counted from 1, is wrong: the database refuses it, or it is the record behind [rows] that cannot be
    read. *)
Definition bad_record {V} (good : list V -> bool) (rows : list (list V)) (fails : bool) (r : nat) : Prop :=
  (exists k row, r = S k /\ nth_error rows k = Some row /\ good row = false) \/
  (fails = true /\ r = S (List.length rows)).
