(** Properties C43, C66 and C67: the generate and automigrate commands. *)
From Verif Require Import GoStr GoStrFacts ModelSq ModelDdl ModelHistory ModelMigrate SpecDb SpecMigrate MigratePlan MigrateWitness
  ModelCatalog ModelDiff ModelDiffSql SpecDiff DiffRun DiffWitness ModelGenerate SpecGenerate GenerateFacts.

(** ** C43: warnings and dry runs *)
Theorem C43_generate_warnings : forall accept headers dir files ws rs t o,
  generate accept false headers dir (Ok (files, ws)) rs = (t, o) ->
  ws <> [] -> accept = false -> t = [] /\ o = Failed.
Proof. intros accept headers dir files ws rs t o H W ->. rewrite generate_warned in H by exact W. injection H as <- <-. auto. Qed.
Print Assumptions C43_generate_warnings.
Theorem C43_generate_dry : forall accept headers dir r rs t o,
  generate accept true headers dir r rs = (t, o) -> forall e, In e t -> touches_file e = false.
Proof. exact generate_dry. Qed.
Print Assumptions C43_generate_dry.
Theorem C43_automigrate_warnings : forall accept c files ws os rs t t' o,
  automigrate accept false c (Ok (files, ws)) os rs = (t, t', o) ->
  ws <> [] -> accept = false -> t = [] /\ t' = [] /\ (files <> [] -> o = Failed).
Proof.
  intros accept c files ws os rs t t' o H W ->. destruct (automigrate_warned c files ws os rs W) as (o' & E & F). rewrite E in H. injection H as <- <- <-. auto.
Qed.
Print Assumptions C43_automigrate_warnings.
Theorem C43_automigrate_dry : forall accept c r os rs t t' o,
  automigrate accept true c r os rs = (t, t', o) -> t' = [] /\ forall e, In e t -> touches_file e = false.
Proof. exact automigrate_dry. Qed.
Print Assumptions C43_automigrate_dry.
(** What a dry run shows: every file that is not for undoing, in order. *)
Theorem C43_generate_dry_shows : forall accept headers dir files ws rs t,
  good_dir dir -> generate accept true headers dir (Ok (files, ws)) rs = (t, Done) -> listing dir headers files (printed t).
Proof. exact generate_dry_shows. Qed.
Print Assumptions C43_generate_dry_shows.
Theorem C43_automigrate_dry_shows : forall accept c files ws os rs t t',
  automigrate accept true c (Ok (files, ws)) os rs = (t, t', Done) -> listing [] (1 <? List.length files) files (printed t).
Proof. exact automigrate_dry_shows. Qed.
Print Assumptions C43_automigrate_dry_shows.

Definition two_scripts : list (bytes * bytes) := [(B"m_01.sql", B"CREATE;"); (B"m_02.txoff.sql", B"INDEX;"); (B"m_02.undo.sql", B"DROP;")].
Example C43_example_warnings : generate false false true (B"out/") (Ok (two_scripts, [B"careful"])) (fun _ => true) = ([], Failed).
Proof. reflexivity. Qed.
Example C43_example_accepted :
  map fst (fst (generate true false true (B"out/") (Ok (two_scripts, [B"careful"])) (fun _ => true)))
  = [GReport (B"careful" ++ [LF]);
     GOpen (B"out/m_01.sql"); GFill (B"out/m_01.sql") (B"CREATE;"); GClose (B"out/m_01.sql"); GReport (B"out/m_01.sql" ++ [LF]);
     GOpen (B"out/m_02.txoff.sql"); GFill (B"out/m_02.txoff.sql") (B"INDEX;"); GClose (B"out/m_02.txoff.sql"); GReport (B"out/m_02.txoff.sql" ++ [LF]);
     GOpen (B"out/m_02.undo.sql"); GFill (B"out/m_02.undo.sql") (B"DROP;"); GClose (B"out/m_02.undo.sql"); GReport (B"out/m_02.undo.sql" ++ [LF])].
Proof. reflexivity. Qed.
Example C43_example_dry :
  printed (fst (generate false true true (B"out/") (Ok (two_scripts, [B"careful"])) (fun _ => true)))
  = B"-- out/m_01.sql" ++ [LF] ++ B"CREATE;" ++ [LF] ++ B"-- out/m_02.txoff.sql" ++ [LF] ++ B"INDEX;".
Proof. reflexivity. Qed.
Example C43_example_automigrate :
  let '(_, t', o) := automigrate true false shop (Ok (two_scripts, [B"careful"])) (fun _ => true) (replies []) in
  o = Done /\ map fst t' = [OpBegin; OpExec (B"m_01.sql") (B"CREATE;"); OpCommit; OpExec (B"m_02.txoff.sql") (B"INDEX;")].
Proof. vm_compute. auto. Qed.

(** ** C66: automigrate runs what was generated *)
Theorem C66_automigrate_runs : forall d flt src dest drop files ws text say c accept s os rs t t',
  unique_tables (ct_schemas src) -> unique_tables (ct_schemas dest) -> readable_types d (ct_schemas src) -> readable_types d (ct_schemas dest) ->
  plain_names (ct_schemas src) -> plain_names (ct_schemas dest) -> plain (ct_current src) -> good_hash c ->
  results d flt (B"automigrate") src dest drop = Ok (files, ws) -> NoDup (map r_name (hist s)) ->
  automigrate accept false c (Ok (map (fun f => (fl_name f, text (fl_stmts f))) files, map say ws)) os rs = (t, t', Done) ->
  let runs := filter (fun f => negb (fl_undo f)) files in
  exists new, data (after s t') = data s ++ new
    /\ in_order (auto_config c (map (fun f => (fl_name f, text (fl_stmts f))) files)) (map fl_name runs) new
    /\ (Forall no_lock t' -> new = map (fun f => Applied (fl_name f) (text (fl_stmts f))) runs).
Proof.
  intros d flt src dest drop files ws text say c accept s os rs t t' U1 U2 R1 R2 P1 P2 P3 G H Hh A.
  refine (automigrate_runs d flt src dest drop files ws text say c _ H G accept s os rs t t' Hh A). unfold ordinary. auto 8.
Qed.
Print Assumptions C66_automigrate_runs.
Example C66_example :
  match results Postgres no_float (B"automigrate") (old_db Postgres) (new_db Postgres) true with
  | Ok (files, ws) =>
      let '(_, t', o) := automigrate true false shop (Ok (map (fun f => (fl_name f, B"x")) files, map (fun _ => B"w") ws)) (fun _ => true) (replies []) in
      o = Done /\ List.length files = 7 /\ data (after empty t') = map (fun f => Applied (fl_name f) (B"x")) (filter (fun f => negb (fl_undo f)) files)
  | _ => False
  end.
Proof. vm_compute. auto. Qed.

(** ** C67: generate writes the files and nothing else *)
Theorem C67_written : forall accept headers dir files ws rs t,
  NoDup (map fst files) -> generate accept false headers dir (Ok (files, ws)) rs = (t, Done) ->
  forall disk f, disk_after disk t f
    = match text_under (map (fun p => (dir ++ fst p, snd p)) files) f with Some b => Some b | None => disk f end.
Proof. intros accept headers dir files ws rs t D H. exact (proj2 (generate_writes _ _ _ _ _ _ _ D H)). Qed.
Print Assumptions C67_written.
Theorem C67_no_other_file : forall accept headers dir files ws rs t o,
  generate accept false headers dir (Ok (files, ws)) rs = (t, o) ->
  forall x ok f, In (x, ok) t -> file_of x = Some f -> exists n text, In (n, text) files /\ f = dir ++ n.
Proof. exact generate_only. Qed.
Print Assumptions C67_no_other_file.
Theorem C67_succeeds : forall accept headers dir files ws rs,
  (ws = [] \/ accept = true) -> (forall n, rs n = true) -> snd (generate accept false headers dir (Ok (files, ws)) rs) = Done.
Proof. exact generate_done. Qed.
Print Assumptions C67_succeeds.
Example C67_example : NoDup (map fst two_scripts)
  /\ disk_after (fun _ => None) (fst (generate false false true (B"out/") (Ok (two_scripts, [])) (fun _ => true))) (B"out/m_02.undo.sql") = Some (B"DROP;").
Proof. split; [repeat constructor; cbn; intuition discriminate|reflexivity]. Qed.
(** A failing write: the first file is there, the second is not. *)
Example C67_failure :
  let '(t, o) := generate false false true (B"out/") (Ok (two_scripts, [])) (fun n => negb (n =? 4)) in
  o = Failed /\ disk_after (fun _ => None) t (B"out/m_01.sql") = Some (B"CREATE;") /\ disk_after (fun _ => None) t (B"out/m_02.txoff.sql") = None.
Proof. vm_compute. auto. Qed.
