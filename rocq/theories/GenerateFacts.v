(** Facts about generate and automigrate. *)
From Verif Require Import GoStr GoStrFacts ModelSq ModelDdl ModelHistory ModelMigrate SpecDb SpecMigrate MigrateTrace MigrateGroups MigratePlan MigrateWitness
  ModelCatalog ModelDiff ModelDiffSql SpecDiff DiffRun ModelGenerate SpecGenerate.

(** ** Programs *)
Lemma gtry_run o k rs t x : gtry o k rs = (t, x) ->
  (rs 0 = false /\ t = [(o, false)] /\ x = Failed)
  \/ (rs 0 = true /\ exists t', k (fun n => rs (S n)) = (t', x) /\ t = (o, true) :: t').
Proof.
  unfold gtry, gbind, gcall. cbn [List.length plus]. destruct (rs 0).
  - destruct (k (fun n => rs (S n))) as [t' x'] eqn:E. intros H. injection H as <- <-. right. split; [reflexivity|]. exists t'. split; reflexivity.
  - cbn. intros H. injection H as <- <-. auto.
Qed.
Lemma greport_run l : forall k rs t x, greport l k rs = (t, x) ->
  exists t1 t2 rs', t = t1 ++ t2 /\ k rs' = (t2, x) /\ map fst t1 = map (fun w => GReport (w ++ [LF])) l.
Proof.
  induction l as [|w l IH]; intros k rs t x H; cbn [greport] in H.
  - exists [], t, rs. auto.
  - unfold gbind, gcall in H. cbn [List.length plus] in H. destruct (greport l k _) as [t' x'] eqn:E. injection H as <- <-.
    destruct (IH _ _ _ _ E) as (t1 & t2 & rs' & -> & K & M). exists ((GReport (w ++ [LF]), rs 0) :: t1), t2, rs'.
    split; [reflexivity|]. split; [exact K|]. cbn [map fst]. rewrite M. reflexivity.
Qed.
Lemma gtry_if_run b o k rs t x : gtry_if b o k rs = (t, x) ->
  (b = false /\ k rs = (t, x))
  \/ (b = true /\ t = [(o, false)] /\ x = Failed)
  \/ (b = true /\ exists t' rs', k rs' = (t', x) /\ t = (o, true) :: t').
Proof.
  destruct b; cbn [gtry_if]; [|auto]. intros H. apply gtry_run in H. destruct H as [(_ & -> & ->)|(_ & t' & K & ->)]; [auto|].
  right. right. split; [reflexivity|]. eauto.
Qed.

(** ** Reports *)
Lemma reports_harmless (l : list bytes) : forall t1 : list gevent, map fst t1 = map (fun w => GReport (w ++ [LF])) l -> forall e, In e t1 -> exists w ok, e = (GReport w, ok).
Proof.
  induction l as [|w l IH]; intros [|[o ok] t1] H e He; try discriminate H; [contradiction|]. cbn in H. injection H as H1 H2.
  destruct He as [<-|He]; [subst o; eauto|exact (IH _ H2 _ He)].
Qed.
Lemma reports_disk (l : list bytes) t1 : map fst t1 = map (fun w => GReport (w ++ [LF])) l -> forall disk, disk_after disk t1 = disk.
Proof.
  revert t1. induction l as [|w l IH]; intros [|[o ok] t1] H disk; try discriminate H; [reflexivity|]. cbn in H. injection H as H1 H2. subst o.
  cbn. destruct ok; exact (IH _ H2 disk).
Qed.
Lemma reports_printed (l : list bytes) t1 : map fst t1 = map (fun w => GReport (w ++ [LF])) l -> printed t1 = [].
Proof.
  revert t1. induction l as [|w l IH]; intros [|[o ok] t1] H; try discriminate H; [reflexivity|]. cbn in H. injection H as H1 H2. subst o.
  cbn. destruct ok; exact (IH _ H2).
Qed.
Lemma disk_app disk a b : disk_after disk (a ++ b) = disk_after (disk_after disk a) b.
Proof. apply fold_left_app. Qed.
Lemma printed_app a b : printed (a ++ b) = printed a ++ printed b.
Proof. apply flat_map_app. Qed.

(** ** Dry runs *)
Definition only_prints (t : list gevent) : Prop := forall e, In e t -> touches_file e = false.
Lemma only_cons e t : touches_file e = false -> only_prints t -> only_prints (e :: t).
Proof. intros H1 H2 x [<-|Hx]; auto. Qed.
Lemma only_nil : only_prints []. Proof. intros e []. Qed.
Ltac run H := first [apply gtry_if_run in H; destruct H as [(? & H)|[(? & -> & ->)|(? & ? & ? & H & ->)]]
                    |apply gtry_run in H; destruct H as [(_ & -> & ->)|(_ & ? & H & ->)]].
Lemma show_files_prints dir headers files : forall i rs t x, show_files dir headers i files rs = (t, x) -> only_prints t.
Proof.
  induction files as [|[n text] files IH]; intros i rs t x H; cbn [show_files] in H; [injection H as <- <-; apply only_nil|].
  destruct (has_suffix _ _); [exact (IH _ _ _ _ H)|].
  repeat run H; repeat (apply only_cons; [reflexivity|]); try apply only_nil; exact (IH _ _ _ _ H).
Qed.
Lemma show_scripts_files many files : forall i, show_scripts many i files = show_files [] many i files.
Proof.
  induction files as [|[n text] files IH]; intros i; [reflexivity|]. cbn [show_scripts show_files app]. rewrite IH. reflexivity.
Qed.

(** The text of a dry run: the files that are not for undoing, in order. *)
Inductive listing (dir : bytes) (headers : bool) : list (bytes * bytes) -> bytes -> Prop :=
| listing_nil : listing dir headers [] []
| listing_undo n text files b : (exists m, n = m ++ B".undo.sql") -> listing dir headers files b -> listing dir headers ((n, text) :: files) b
| listing_file n text files sep b : (~ exists m, dir ++ n = m ++ B".undo.sql") -> sep = [] \/ sep = [LF] -> listing dir headers files b ->
    listing dir headers ((n, text) :: files) (sep ++ (if headers then B"-- " ++ dir ++ n ++ [LF] else []) ++ text ++ b).
(** The directory ends with a slash or is empty. *)
Definition good_dir (dir : bytes) : Prop := dir = [] \/ exists d, dir = d ++ ["/"%char].
Lemma suffix_of_name dir n : good_dir dir -> has_suffix (dir ++ n) (B".undo.sql") = true -> exists m, n = m ++ B".undo.sql".
Proof.
  intros G H. apply has_suffix_iff in H. destruct H as (m & E). destruct (Nat.le_gt_cases (List.length dir) (List.length m)) as [L|L].
  - exists (skipn (List.length dir) m).
    assert (E2 : skipn (List.length dir) (dir ++ n) = skipn (List.length dir) (m ++ B".undo.sql")) by (rewrite E; reflexivity).
    rewrite skipn_app, skipn_all, Nat.sub_diag in E2. cbn [skipn app] in E2. rewrite E2, skipn_app.
    replace (List.length dir - List.length m) with 0 by lia. reflexivity.
  - exfalso. destruct G as [->|(d & ->)]; [cbn in L; lia|].
    (* the slash lies within the suffix *)
    assert (N : nth (List.length d) (m ++ B".undo.sql") "a"%char = "/"%char).
    { rewrite <- E, <- app_assoc, app_nth2, Nat.sub_diag by lia. reflexivity. }
    rewrite app_length in L. cbn [List.length] in L. rewrite app_nth2 in N by lia.
    remember (List.length d - List.length m) as k eqn:K. clear K L E. do 10 (destruct k as [|k]; [discriminate N|]). destruct k; discriminate N.
Qed.
Lemma show_files_listing dir headers files : good_dir dir -> forall i rs t, show_files dir headers i files rs = (t, Done) -> listing dir headers files (printed t).
Proof.
  intros G. induction files as [|[n text] files IH]; intros i rs t H; cbn [show_files] in H; [injection H as <-; constructor|].
  destruct (has_suffix (dir ++ n) _) eqn:E.
  - apply listing_undo; [exact (suffix_of_name _ _ G E)|exact (IH _ _ _ H)].
  - assert (N : ~ exists m, dir ++ n = m ++ B".undo.sql") by (intros (m & M); rewrite (proj2 (has_suffix_iff _ _)) in E; [discriminate E|exists m; exact M]).
    apply gtry_if_run in H. destruct H as [(_ & H)|[(_ & _ & [=])|(_ & t1 & rs1 & H & ->)]];
    (apply gtry_if_run in H; destruct H as [(-> & H)|[(_ & _ & [=])|(-> & t2 & rs2 & H & ->)]]);
    (apply gtry_run in H; destruct H as [(_ & _ & [=])|(_ & t3 & H & ->)]); apply IH in H.
    + exact (listing_file dir false n text files [] _ N (or_introl eq_refl) H).
    + replace (printed _) with ([] ++ (B"-- " ++ dir ++ n ++ [LF]) ++ text ++ printed t3).
      * exact (listing_file dir true n text files [] _ N (or_introl eq_refl) H).
      * cbn [app printed flat_map]. rewrite <- !app_assoc. reflexivity.
    + exact (listing_file dir false n text files [LF] _ N (or_intror eq_refl) H).
    + replace (printed _) with ([LF] ++ (B"-- " ++ dir ++ n ++ [LF]) ++ text ++ printed t3).
      * exact (listing_file dir true n text files [LF] _ N (or_intror eq_refl) H).
      * cbn [app printed flat_map]. rewrite <- !app_assoc. reflexivity.
Qed.

(** ** Writing *)
Definition in_dir (dir : bytes) (files : list (bytes * bytes)) : list (bytes * bytes) := map (fun p => (dir ++ fst p, snd p)) files.
Lemma write_files_disk dir files : forall rs t, NoDup (map fst (in_dir dir files)) -> write_files dir files rs = (t, Done) ->
  forall disk f, disk_after disk t f = match text_under (in_dir dir files) f with Some b => Some b | None => disk f end.
Proof.
  induction files as [|[n text] files IH]; intros rs t D H disk f; cbn [write_files] in H; [injection H as <-; reflexivity|].
  cbn [in_dir map fst snd] in D. inversion D as [|? ? D1 D2]; subst.
  do 3 (apply gtry_run in H; destruct H as [(_ & _ & [=])|(_ & ? & H & ->)]).
  apply greport_run in H. destruct H as (t1 & t2 & rs' & -> & H & R).
  change (disk_after disk (?a :: ?b :: ?c :: ?d)) with (disk_after (disk_step (disk_step (disk_step disk a) b) c) d).
  rewrite disk_app, (reports_disk _ _ R), (IH _ _ D2 H). cbn [disk_step]. unfold text_under. cbn [in_dir map fst snd find]. fold (in_dir dir files).
  destruct (beqb_spec (dir ++ n) f) as [<-|Hf].
  - destruct (find _ (in_dir dir files)) as [[g b]|] eqn:E; [|reflexivity]. exfalso. apply find_some in E. destruct E as (E1 & E2).
    cbn [fst] in E2. apply beqb_eq in E2. subst g. apply D1. apply in_map_iff. exists (dir ++ n, b). auto.
  - destruct (find _ (in_dir dir files)) as [[g b]|]; reflexivity.
Qed.
(** Files that were not generated are not touched. *)
Definition file_of (o : gop) : option bytes := match o with GOpen f | GFill f _ | GClose f => Some f | _ => None end.
Lemma write_files_only dir files : forall rs t x, write_files dir files rs = (t, x) ->
  forall o ok f, In (o, ok) t -> file_of o = Some f -> In f (map fst (in_dir dir files)).
Proof.
  induction files as [|[n text] files IH]; intros rs t x H o ok f I F; cbn [write_files] in H; [injection H as <- <-; contradiction|].
  cbn [in_dir map fst]. fold (in_dir dir files).
  apply gtry_run in H; destruct H as [(_ & -> & _)|(_ & t1 & H & ->)]; (destruct I as [I|I]; [injection I as <- <-; injection F as <-; left; reflexivity|]); [contradiction|].
  apply gtry_run in H; destruct H as [(_ & -> & _)|(_ & t2 & H & ->)]; (destruct I as [I|I]; [injection I as <- <-; injection F as <-; left; reflexivity|]); [contradiction|].
  apply gtry_run in H; destruct H as [(_ & -> & _)|(_ & t3 & H & ->)]; (destruct I as [I|I]; [injection I as <- <-; injection F as <-; left; reflexivity|]); [contradiction|].
  apply greport_run in H. destruct H as (t4 & t5 & rs' & -> & H & R). apply in_app_or in I. destruct I as [I|I].
  - destruct (reports_harmless _ _ R _ I) as (w & ok' & E). injection E as -> _. discriminate F.
  - right. exact (IH _ _ _ H _ _ _ I F).
Qed.
(** If nothing fails everything is written. *)
Lemma greport_done l : forall k rs, (forall rs', snd (k rs') = Done) -> snd (greport l k rs) = Done.
Proof.
  induction l as [|w l IH]; intros k rs H; [apply H|]. cbn [greport]. unfold gbind, gcall. cbn [List.length plus].
  destruct (greport l k _) as [t x] eqn:E. cbn [snd]. change x with (snd (t, x)). rewrite <- E. apply IH. exact H.
Qed.
Lemma write_files_done dir files : forall rs, (forall n, rs n = true) -> snd (write_files dir files rs) = Done.
Proof.
  assert (G : forall o k rs, (forall n, rs n = true) -> (forall rs', (forall n, rs' n = true) -> snd (k rs') = Done) -> snd (gtry o k rs) = Done).
  { intros o k rs R K. destruct (gtry o k rs) as [t x] eqn:E. apply gtry_run in E. destruct E as [(E & _)|(_ & t' & E & _)]; [rewrite R in E; discriminate E|].
    specialize (K (fun n => rs (S n)) (fun n => R (S n))). rewrite E in K. exact K. }
  induction files as [|[n text] files IH]; intros rs R; cbn [write_files]; [reflexivity|].
  apply G; [exact R|]. intros r1 R1. apply G; [exact R1|]. intros r2 R2. apply G; [exact R2|]. intros r3 R3.
  cbn [greport]. unfold gbind, gcall. cbn [List.length plus]. destruct (write_files dir files _) as [t x] eqn:E. cbn [snd].
  change x with (snd (t, x)). rewrite <- E. apply IH. intros m. apply R3.
Qed.

(** ** generate *)
Lemma generate_warned dir headers files ws rs : ws <> [] -> generate false false headers dir (Ok (files, ws)) rs = ([], Failed).
Proof. intros H. destruct ws; [congruence|reflexivity]. Qed.
Lemma generate_dry accept headers dir r rs t x : generate accept true headers dir r rs = (t, x) -> forall e, In e t -> touches_file e = false.
Proof.
  unfold generate. destruct r as [[files ws]| |]; [|intros H; injection H as <- <-; intros e []..].
  rewrite Bool.andb_false_r. intros H e He. apply greport_run in H. destruct H as (t1 & t2 & rs' & -> & H & R). apply in_app_or in He. destruct He as [He|He].
  - destruct (reports_harmless _ _ R _ He) as (w & ok & ->). reflexivity.
  - exact (show_files_prints _ _ _ _ _ _ _ H _ He).
Qed.
Lemma generate_dry_shows accept headers dir files ws rs t : good_dir dir -> generate accept true headers dir (Ok (files, ws)) rs = (t, Done) ->
  listing dir headers files (printed t).
Proof.
  intros G. unfold generate. rewrite Bool.andb_false_r. intros H. apply greport_run in H. destruct H as (t1 & t2 & rs' & -> & H & R).
  rewrite printed_app, (reports_printed _ _ R). exact (show_files_listing _ _ _ G _ _ _ H).
Qed.
Lemma generate_writes accept headers dir files ws rs t : NoDup (map fst files) -> generate accept false headers dir (Ok (files, ws)) rs = (t, Done) ->
  (ws = [] \/ accept = true)
  /\ forall disk f, disk_after disk t f = match text_under (in_dir dir files) f with Some b => Some b | None => disk f end.
Proof.
  intros D. unfold generate. intros H.
  assert (W : negb (none ws) && negb accept && negb false = false).
  { destruct (negb (none ws) && negb accept && negb false); [discriminate H|reflexivity]. }
  rewrite W in H. split.
  - destruct ws; [auto|]. right. destruct accept; [reflexivity|discriminate W].
  - apply greport_run in H. destruct H as (t1 & t2 & rs' & -> & H & R). intros disk f. rewrite disk_app, (reports_disk _ _ R).
    apply (write_files_disk dir files rs'); [|exact H]. unfold in_dir. rewrite map_map. cbn [fst].
    rewrite <- (map_map fst (fun n => dir ++ n)). apply FinFun.Injective_map_NoDup; [|exact D]. intros a b E. exact (app_inv_head _ _ _ E).
Qed.
Lemma generate_done accept headers dir files ws rs : (ws = [] \/ accept = true) -> (forall n, rs n = true) ->
  snd (generate accept false headers dir (Ok (files, ws)) rs) = Done.
Proof.
  intros W R. unfold generate. replace (negb (none ws) && negb accept && negb false) with false by (destruct W as [->| ->]; [reflexivity|rewrite Bool.andb_false_r; reflexivity]).
  clear W. revert rs R. induction ws as [|w ws IH]; intros rs R; [apply write_files_done; exact R|].
  cbn [greport]. unfold gbind, gcall. cbn [List.length plus]. destruct (greport ws _ _) as [t x] eqn:E. cbn [snd]. change x with (snd (t, x)).
  rewrite <- E. apply IH. intros n. apply R.
Qed.
Lemma generate_only accept headers dir files ws rs t x : generate accept false headers dir (Ok (files, ws)) rs = (t, x) ->
  forall o ok f, In (o, ok) t -> file_of o = Some f -> exists n text, In (n, text) files /\ f = dir ++ n.
Proof.
  unfold generate. intros H o ok f I F. destruct (negb (none ws) && negb accept && negb false); [injection H as <- <-; contradiction|].
  apply greport_run in H. destruct H as (t1 & t2 & rs' & -> & H & R). apply in_app_or in I. destruct I as [I|I].
  - destruct (reports_harmless _ _ R _ I) as (w & ok' & E). injection E as -> _. discriminate F.
  - pose proof (write_files_only _ _ _ _ _ H _ _ _ I F) as M. apply in_map_iff in M. destruct M as (p & <- & M). apply in_map_iff in M.
    destruct M as ([n text] & <- & M). exists n, text. auto.
Qed.

(** ** automigrate *)
Lemma automigrate_warned c files ws os rs : ws <> [] -> exists o, automigrate false false c (Ok (files, ws)) os rs = ([], [], o) /\ (files <> [] -> o = Failed).
Proof. intros H. destruct files; [exists Done; split; [reflexivity|congruence]|]. destruct ws; [congruence|]. exists Failed. split; reflexivity. Qed.
Lemma automigrate_dry accept c r os rs t t' o : automigrate accept true c r os rs = (t, t', o) ->
  t' = [] /\ forall e, In e t -> touches_file e = false.
Proof.
  unfold automigrate. destruct r as [[files ws]| |]; [|intros H; injection H as <- <- <-; split; [reflexivity|intros e []]..].
  destruct (none files); [intros H; injection H as <- <- <-; split; [reflexivity|intros e []]|]. rewrite Bool.andb_false_r.
  destruct (greport ws _ os) as [u x] eqn:E. intros H. injection H as <- <- <-. split; [reflexivity|]. intros e He.
  apply greport_run in E. destruct E as (t1 & t2 & rs' & -> & E & R). apply in_app_or in He. destruct He as [He|He].
  - destruct (reports_harmless _ _ R _ He) as (w & ok & ->). reflexivity.
  - rewrite show_scripts_files in E. exact (show_files_prints _ _ _ _ _ _ _ E _ He).
Qed.
Lemma automigrate_dry_shows accept c files ws os rs t t' : automigrate accept true c (Ok (files, ws)) os rs = (t, t', Done) ->
  listing [] (1 <? List.length files) files (printed t).
Proof.
  unfold automigrate. destruct files as [|f files]; [intros H; injection H as <- <-; constructor|]. cbn [none]. rewrite Bool.andb_false_r.
  destruct (greport ws _ os) as [u x] eqn:E. intros H. injection H as <- <- ->. apply greport_run in E. destruct E as (t1 & t2 & rs' & -> & E & R).
  rewrite printed_app, (reports_printed _ _ R). rewrite show_scripts_files in E. exact (show_files_listing [] _ _ (or_introl eq_refl) _ _ _ E).
Qed.
Lemma contents_found files n : In n (map fst files) <-> contents files n <> None.
Proof.
  induction files as [|[m text] files IH]; cbn [contents map fst In]; [split; [contradiction|congruence]|]. destruct (contents files n).
  - split; [congruence|]. intros _. right. apply IH. congruence.
  - destruct (beqb_spec m n) as [->|N]; [split; [congruence|auto]|]. split; [|congruence]. intros [E|E]; [congruence|]. apply IH in E. congruence.
Qed.
Lemma contents_in files n text : NoDup (map fst files) -> In (n, text) files -> contents files n = Some text.
Proof.
  induction files as [|[m b] files IH]; intros D H; [contradiction|]. cbn [map fst] in D. inversion D as [|? ? D1 D2]; subst. cbn [contents]. destruct H as [H|H].
  - injection H as -> ->. destruct (contents files n) eqn:E; [|rewrite (proj2 (beqb_eq n n) eq_refl); reflexivity].
    exfalso. apply D1. apply contents_found. congruence.
  - rewrite (IH D2 H). reflexivity.
Qed.

(** What was written is run: [text] says how the statements of a file are spelled. *)
Definition spelled (text : list stmt -> bytes) (files : list file) : list (bytes * bytes) := map (fun f => (fl_name f, text (fl_stmts f))) files.
Lemma spelled_names text files : map fst (spelled text files) = map fl_name files.
Proof. unfold spelled. rewrite map_map. reflexivity. Qed.
Lemma pending_all c h : c_skip_history c = true -> forall files, pending c h files files.
Proof. intros H. induction files; [constructor|]. apply pending_due; auto. Qed.
Lemma in_order_change c c' pend new : c_dialect c = c_dialect c' -> c_dir c = c_dir c' -> in_order c pend new -> in_order c' pend new.
Proof. intros E1 E2 H. induction H; constructor; rewrite <- ?E1, <- ?E2; assumption. Qed.
Lemma pending_same c h files p : c_skip_history c = true -> pending c h files p -> p = files.
Proof. intros H. induction 1; [reflexivity|congruence|]. f_equal. assumption. Qed.

Lemma groups_no_query c fin gs t o : groups_trace c fin gs t o -> forall r, ~ In (OpQuery, r) t.
Proof.
  induction 1 as [|g gs t t' o Hb Hg IH|g gs t o Hb Ho]; intros r I; [contradiction| |].
  - apply in_app_or in I. destruct I as [I|I]; [|exact (IH r I)]. apply batch_trace_events in Hb. rewrite Forall_forall in Hb. exact (Hb _ I).
  - apply batch_trace_events in Hb. rewrite Forall_forall in Hb. exact (Hb _ I).
Qed.
Lemma skip_full_read c walk args h rs t o : c_skip_history c = true -> migrate c walk args h rs = (t, o) -> full_read t.
Proof.
  intros S M n I. unfold migrate in M. destruct (selected_files c walk args); [|injection M as <- <-; contradiction].
  rewrite S in M. apply drive_trace in M. exact (groups_no_query _ _ _ _ _ M _ I).
Qed.
Lemma skip_history_unused c walk args h h' : c_skip_history c = true -> migrate c walk args h = migrate c walk args h'.
Proof. intros S. unfold migrate. rewrite S. reflexivity. Qed.

Section Auto.
  Variables (d : dialect) (flt : bytes -> bool) (src dest : catalog) (drop : bool) (files : list file) (ws : list warning)
    (text : list stmt -> bytes) (say : warning -> bytes) (c : config).
  Hypothesis O : ordinary d src dest.
  Hypothesis H : results d flt (B"automigrate") src dest drop = Ok (files, ws).
  Hypothesis G : good_hash c.
  Definition forward : list file := filter (fun f => negb (fl_undo f)) files.
  Lemma auto_names : NoDup (map fl_name files) /\ sort_and_filter (map fl_name files) = map fl_name forward.
  Proof.
    apply (generated_files_run d flt (B"automigrate") src dest drop files ws O); [|discriminate..|exact H].
    split; intros I; cbn in I; intuition discriminate.
  Qed.
  Lemma forward_in f : In f forward -> In f files. Proof. intros I. apply filter_In in I. tauto. Qed.
  Lemma auto_clean : files <> [] -> clean (auto_config c (spelled text files)) [] (map fst (spelled text files)) (map fl_name forward).
  Proof.
    intros NE. destruct auto_names as (D & S). rewrite spelled_names.
    assert (R : forall n, In n (map fl_name files) -> contents (spelled text files) n <> None).
    { intros n I. apply contents_found. rewrite spelled_names. exact I. }
    assert (F : incl (map fl_name forward) (map fl_name files)).
    { intros n I. apply in_map_iff in I. destruct I as (f & <- & I). apply in_map, forward_in, I. }
    constructor.
    - unfold selected_files. destruct (map fl_name files) as [|n l] eqn:E; [destruct files; [congruence|discriminate E]|].
      rewrite <- E in *. cbn [auto_config c_dir]. rewrite S.
      rewrite (proj2 (forallb_forall _ _)); [reflexivity|]. intros x I. specialize (R x I). destruct (contents _ x); [reflexivity|congruence].
    - clear - D. unfold forward. induction files as [|f l IH]; [constructor|]. cbn [map filter] in *. inversion D as [|? ? D1 D2]; subst.
      destruct (fl_undo f); cbn [negb]; [exact (IH D2)|]. cbn [map]. constructor; [|exact (IH D2)].
      intro I. apply D1. apply in_map_iff in I. destruct I as (g & <- & I). apply filter_In in I. apply in_map. tauto.
    - discriminate.
    - apply Forall_forall. intros n I. unfold readable. cbn [auto_config c_dir]. apply R, F, I.
    - exact G.
  Qed.
  Lemma auto_each_once new : each_once (auto_config c (spelled text files)) (map fl_name forward) new ->
    new = map (fun f => Applied (fl_name f) (text (fl_stmts f))) forward.
  Proof.
    intros E. destruct auto_names as (D & _).
    assert (K : forall l, incl l files -> forall es, each_once (auto_config c (spelled text files)) (map fl_name l) es ->
              es = map (fun f => Applied (fl_name f) (text (fl_stmts f))) l).
    { induction l as [|f l IH]; intros I es Q; inversion Q as [|? ? ? ? E1 Q1]; subst; [reflexivity|]. cbn [map]. f_equal; [|apply IH; [intros y Hy; apply I; right; exact Hy|exact Q1]].
      cbn [auto_config c_dir] in E1. rewrite (contents_in _ _ (text (fl_stmts f))) in E1; [injection E1 as <-; reflexivity|rewrite spelled_names; exact D|].
      unfold spelled. apply in_map_iff. exists f. split; [reflexivity|]. apply I. left. reflexivity. }
    apply K; [exact forward_in|exact E].
  Qed.
  Theorem automigrate_runs accept s os rs t t' : NoDup (map r_name (hist s)) ->
    automigrate accept false c (Ok (spelled text files, map say ws)) os rs = (t, t', Done) ->
    exists new, data (after s t') = data s ++ new
      /\ in_order (auto_config c (spelled text files)) (map fl_name forward) new
      /\ (Forall no_lock t' -> new = map (fun f => Applied (fl_name f) (text (fl_stmts f))) forward).
  Proof.
    intros Hh A. unfold automigrate in A. destruct files as [|f0 fs] eqn:EF.
    - cbn in A. injection A as <- <-. exists []. unfold forward. rewrite EF. cbn. rewrite app_nil_r. split; [reflexivity|]. split; [constructor|auto].
    - rewrite <- EF in *. assert (NE : files <> []) by (rewrite EF; discriminate).
      replace (none (spelled text files)) with false in A by (rewrite EF; reflexivity).
      destruct (negb (none (map say ws)) && negb accept && negb false); [discriminate A|].
      destruct (greport _ _ os) as [u x]. destruct (migrate _ _ _ _ rs) as [v o] eqn:M. injection A as <- <- ->.
      rewrite (skip_history_unused (auto_config c (spelled text files)) _ _ _ (hist s) eq_refl) in M.
      pose proof (skip_full_read (auto_config c (spelled text files)) _ _ _ _ _ _ eq_refl M) as FR.
      destruct (run_all_pending _ _ _ _ _ _ _ _ (auto_clean NE) Hh (pending_all (auto_config c (spelled text files)) _ eq_refl _) M FR) as (new & E1 & E2 & E3 & _).
      exists new. split; [exact E1|]. split; [exact E2|]. intros L. apply auto_each_once, E3. left. exact L.
  Qed.
End Auto.
