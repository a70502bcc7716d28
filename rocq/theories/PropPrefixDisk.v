(** Property C123, on the disk: a later call of generate does not touch the files of an earlier one, even if it fails. *)
From Coq Require Import Lia.
From Verif Require Import GoStr GoStrFacts ModelSq ModelHistory ModelMigrate ModelCatalog ModelDdl ModelDiff ModelDiffSql SpecDiff DiffWitness
  ModelGenerate SpecGenerate GenerateFacts ModelStamp ModelPrefix SpecPrefix PropPrefix.

Lemma disk_untouched : forall t disk f, (forall o ok g, In (o, ok) t -> file_of o = Some g -> g <> f) -> disk_after disk t f = disk f.
Proof.
  induction t as [|[o ok] t IH]; intros disk f H; [reflexivity|]. change (disk_after disk ((o, ok) :: t) f) with (disk_after (disk_step disk (o, ok)) t f).
  rewrite IH by (intros o' ok' g I; apply (H o' ok' g); right; exact I). specialize (H o ok). destruct o as [b|b|g|g b|g], ok; cbn [disk_step]; try reflexivity;
    (destruct (beqb_spec g f) as [E|N]; [exfalso; exact (H g (or_introl eq_refl) eq_refl E)|reflexivity]).
Qed.
(** [r] is the earlier call, [r'] the later; the stream [rs] says which operations of the later one succeed, [text] and [say] are the
    texts of statements and warnings. *)
Theorem C123_untouched : forall flt text say headers dir rs t o r r' files' ws' f disk,
  by_time r -> by_time r' -> writable r -> writable r' -> (rn_now r < rn_now r')%Z -> In f (written flt r) ->
  results (rn_dialect r') flt (prefix_of (rn_given r') (rn_now r')) (rn_src r') (rn_dest r') (rn_drop r') = Ok (files', ws') ->
  ModelGenerate.generate (rn_accept r') false headers dir (Ok (map (fun f => (fl_name f, text (fl_stmts f))) files', map say ws')) rs = (t, o) ->
  (forall x ok, In (x, ok) t -> file_of x <> Some (dir ++ fl_name f)) /\ disk_after disk t (dir ++ fl_name f) = disk (dir ++ fl_name f).
Proof.
  intros flt text say headers dir rs t o r r' files' ws' f disk B B' W W' L I E G.
  assert (A : forall x ok g, In (x, ok) t -> file_of x = Some g -> g <> dir ++ fl_name f);
    [|split; [intros x ok X F; exact (A x ok _ X F eq_refl)|apply disk_untouched; exact A]]. intros x ok g X F Q.
  destruct (generate_only _ _ _ _ _ _ _ _ G x ok g X F) as (n & b & J & ->). apply app_inv_head in Q. apply in_map_iff in J. destruct J as (f' & J & I'). apply pair_equal_spec in J. destruct J as (<- & _).
  destruct (names_begin _ _ _ _ _ _ _ _ _ E I') as (y & Y). destruct (written_begin _ _ _ I) as (z & Z). unfold by_time in *. rewrite B in Z. rewrite B' in Y. cbn [prefix_of] in Y, Z.
  pose proof (stamp14_less (rn_now r) (rn_now r') z y W W' L) as C. rewrite <- Y, <- Z, Q, bltb_irrefl in C. discriminate C.
Qed.
Print Assumptions C123_untouched.
(** The second operation of the later call fails. *)
Example C123_untouched_example : exists f files' ws' t,
  let r := some_run SQLite 1700000000 false in let r' := some_run SQLite 1700000001 true in
  In f (written no_float r)
  /\ results (rn_dialect r') no_float (prefix_of (rn_given r') (rn_now r')) (rn_src r') (rn_dest r') (rn_drop r') = Ok (files', ws') /\ files' <> []
  /\ ModelGenerate.generate true false true (B"out/") (Ok (map (fun f => (fl_name f, B"text")) files', map (fun _ => B"warning") ws')) (fun n => n <? 1)%nat = (t, Failed).
Proof.
  exists (hd (File [] false []) (written no_float (some_run SQLite 1700000000 false))).
  set (R := results SQLite no_float (stamp14 1700000001) (new_db SQLite) (old_db SQLite) true). exists (fst (DiffWitness.got R)), (snd (DiffWitness.got R)).
  set (T := ModelGenerate.generate true false true (B"out/") (Ok (map (fun f => (fl_name f, B"text")) (fst (DiffWitness.got R)), map (fun _ => B"warning") (snd (DiffWitness.got R)))) (fun n => n <? 1)%nat).
  exists (fst T). cbv zeta. split; [left; vm_compute; reflexivity|]. split; [vm_compute; reflexivity|]. split; [vm_compute; discriminate|]. vm_compute. reflexivity.
Qed.
