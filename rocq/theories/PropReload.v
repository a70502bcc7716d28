(** C84: load loads what dump has written, all of it and nothing else. *)
From Coq Require Import Lia Permutation.
From Verif Require Import GoStr GoStrFacts ModelLoadFiles SpecLoadFiles LoadFilesFacts PropLoadFiles.

(** ** The claim *)
Definition rows_loaded (did : list action) : list bytes :=
  flat_map (fun a => match a with LoadCsv _ c => [c] | LoadTogether l => map snd l | RunScript _ => [] end) did.
Definition scripts_run (did : list action) : list bytes :=
  flat_map (fun a => match a with RunScript c => [c] | _ => [] end) did.
Definition not_empty (c : bytes) : bool := match c with [] => false | _ => true end.
(** The rows of all tables are loaded, and the scripts of the schema are run. *)
Definition reloaded (schema_only data_only : bool) (c : dump_contents) (did : list action) : Prop :=
  Permutation (rows_loaded did) (if schema_only then [] else map snd (dc_tables c)) /\
  scripts_run did = filter not_empty (if negb schema_only && data_only then [] else [dc_schema c; dc_indexes c; dc_constraints c]).
(** [reload arg n]: what load does with this file or directory when nothing fails. *)
Definition reload (sqlite : bool) (arg : bytes) (n : node) : doing :=
  load_args sqlite (fun _ _ => true) (with_file arg n) [arg] ([], true).
Definition is_archive (arg : bytes) (n : node) : Prop :=
  match n with
  | Zipped _ => has_suffix arg (B".zip") = true
  | Tarred _ => has_suffix arg (B".tgz") = true
  | Directory _ => forall s, In s ["sql"; "csv"; "zip"; "tgz"; "tar.gz"]%string -> has_suffix arg (B("." ++ s)%string) = false
  | _ => False
  end.
(** Where a dump is written to: an archive, or a directory that may have had files already. *)
Inductive written (es : list entry) : node -> listing -> Prop :=
| WZip : written es (Zipped es) []
| WTgz : written es (Tarred es) []
| WDir l l' : NoDup (map fst l) -> Forall (fun x => usual_element (fst x)) l -> dump_dir es l = Some l' -> written es (Directory l') l.
Definition C84_claim (restriction : bytes -> list entry -> node -> listing -> Prop) : Prop :=
  forall sqlite schema_only data_only current c arg n old,
  let es := dump_entries schema_only data_only current c in
  written es n old -> is_archive arg n -> restriction arg es n old ->
  exists did, reload sqlite arg n = (did, true) /\ reloaded schema_only data_only c did.
Definition C84_full : Prop := C84_claim (fun _ _ _ _ => True).
(** The restrictions: no slashes in the names of files; the archive is not called __MACOSX.zip; a
    directory was empty, and the files have different names. *)
Definition plain_dump (arg : bytes) (es : list entry) (n : node) (old : listing) : Prop :=
  Forall (fun e : entry => ~ In "/"%char (fst e)) es /\
  match n with
  | Zipped _ => ~ stem_is arg (B".zip") (B"__MACOSX")
  | Directory _ => old = [] /\ NoDup (map fst es)
  | _ => True
  end.

(** ** The names of the files *)
Lemma csv_element f : ~ In SLASH f -> has_suffix f (B".csv") = true -> usual_element f.
Proof.
  intros H S. apply has_suffix_iff in S. destruct S as (r & ->). repeat split; try exact H.
  - destruct r; discriminate.
  - destruct r as [|x r]; [discriminate|]. intros E. injection E as _ E. destruct r; discriminate.
  - destruct r as [|x [|y r]]; [discriminate| |]; intros E; injection E; intros; try discriminate. destruct r; discriminate.
Qed.
Lemma dump_name_csv current s n : has_suffix (dump_name current s n) (B".csv") = true.
Proof.
  unfold dump_name. destruct (_ && _); [|apply has_suffix_app]. rewrite !app_assoc. apply has_suffix_app.
Qed.
Lemma element_name f : usual_element f -> usual_name f.
Proof.
  intros F. exists [f], []. split; [discriminate|]. split; [constructor; [exact F|constructor]|]. rewrite app_nil_r. auto.
Qed.
Definition table_entry (current : bytes) (t : bytes * bytes * bytes) : entry :=
  let '(s, n, rows) := t in (dump_name current s n, rows).
Definition script_entries (schema_only data_only : bool) (c : dump_contents) : list entry :=
  if negb schema_only && data_only then []
  else [(B"schema.json", dc_json c); (SCHEMA, dc_schema c); (INDEXES, dc_indexes c); (CONSTRAINTS, dc_constraints c)].
Definition csv_entries (schema_only : bool) (current : bytes) (c : dump_contents) : list entry :=
  if schema_only then [] else map (table_entry current) (dc_tables c).
Lemma dump_entries_parts so d current c : dump_entries so d current c = script_entries so d c ++ csv_entries so current c.
Proof. reflexivity. Qed.
Lemma csv_entries_csv so current c e : In e (csv_entries so current c) -> has_suffix (fst e) (B".csv") = true.
Proof.
  unfold csv_entries. destruct so; [intros []|]. intros I. apply in_map_iff in I. destruct I as ([[s n] rows] & <- & _).
  apply dump_name_csv.
Qed.
Lemma dump_elements so d current c : Forall (fun e : entry => ~ In SLASH (fst e)) (dump_entries so d current c) ->
  Forall (fun e : entry => usual_element (fst e)) (dump_entries so d current c).
Proof.
  rewrite dump_entries_parts, !Forall_app. intros [_ H]. split.
  - unfold script_entries. destruct (negb so && d); [constructor|].
    repeat (constructor; [repeat split; try discriminate; cbn; intros X; repeat destruct X as [X|X]; discriminate || exact X|]). constructor.
  - rewrite Forall_forall in *. intros e I. apply csv_element; [exact (H e I)|exact (csv_entries_csv _ _ _ _ I)].
Qed.

(** ** What is loaded *)
Section Top.
Context (stem : option bytes).
Lemma top_element f : usual_element f -> top_file stem f = Some f.
Proof.
  intros F. unfold top_file. change f with (before [] ++ f) at 1.
  rewrite last_usual by exact F. change f with (before [] ++ f) at 1.
  rewrite elements_before by auto. destruct f; [destruct F as [N _]; contradiction|reflexivity].
Qed.
Lemma top_is f (e : entry) : usual_element (fst e) -> is_top stem f e = beqb (fst e) f.
Proof. intros U. unfold is_top. rewrite top_element by exact U. reflexivity. Qed.
Lemma top_csv (e : entry) : usual_element (fst e) -> is_top_csv stem e = has_suffix (fst e) (B".csv").
Proof. intros U. unfold is_top_csv. rewrite top_element by exact U. reflexivity. Qed.
(** The bodies of the scripts called [f]. *)
Definition called (f : bytes) (es : list entry) : list bytes := filter not_empty (map snd (filter (fun e : entry => beqb (fst e) f) es)).
Definition in_csvs (es : list entry) : list entry := filter (fun e : entry => has_suffix (fst e) (B".csv")) es.
Lemma script_called f es : Forall (fun e : entry => usual_element (fst e)) es -> scripts_run (script stem f es) = called f es.
Proof.
  intros U. induction U as [|e es Ue U IH]; [reflexivity|]. unfold script, called. cbn [flat_map filter].
  rewrite (top_is f e Ue). unfold scripts_run. rewrite flat_map_app. unfold script, scripts_run in IH. rewrite IH. unfold called.
  destruct (beqb (fst e) f); cbn [map filter]; destruct (snd e); reflexivity.
Qed.
Lemma script_no_rows f es : rows_loaded (script stem f es) = [].
Proof.
  unfold script. induction es as [|e es IH]; [reflexivity|]. cbn [flat_map]. unfold rows_loaded. rewrite flat_map_app.
  unfold rows_loaded in IH. rewrite IH, app_nil_r.
  destruct (snd e); [reflexivity|]. destruct (is_top stem f e); reflexivity.
Qed.
Lemma csvs_rows together es : Forall (fun e : entry => usual_element (fst e)) es -> rows_loaded (csvs together stem es) = map snd (in_csvs es).
Proof.
  intros U. unfold csvs.
  assert (E : filter (is_top_csv stem) es = in_csvs es).
  { induction U as [|e es Ue U IH]; [reflexivity|]. unfold in_csvs. cbn [filter]. rewrite (top_csv e Ue), IH. reflexivity. }
  rewrite E. clear E U. destruct together.
  - destruct (in_csvs es); [reflexivity|]. cbn. rewrite app_nil_r. reflexivity.
  - generalize (in_csvs es) as l. induction l as [|e l IH]; [reflexivity|]. unfold rows_loaded in *. cbn [map flat_map app]. rewrite IH. reflexivity.
Qed.
Lemma csvs_scripts together es : scripts_run (csvs together stem es) = [].
Proof.
  unfold csvs. destruct together; [destruct (filter _ es); reflexivity|].
  generalize (filter (is_top_csv stem) es) as l. induction l as [|e l IH]; [reflexivity|]. exact IH.
Qed.
Lemma documented_reloaded together es : Forall (fun e : entry => usual_element (fst e)) es ->
  rows_loaded (documented together stem es) = map snd (in_csvs es) /\
  scripts_run (documented together stem es) = called SCHEMA es ++ called INDEXES es ++ called CONSTRAINTS es.
Proof.
  intros U. unfold documented. unfold rows_loaded, scripts_run. rewrite !flat_map_app.
  fold (rows_loaded (script stem (B"schema.sql") es)) (rows_loaded (script stem (B"indexes.sql") es))
       (rows_loaded (script stem (B"constraints.sql") es)) (rows_loaded (csvs together stem es)).
  fold (scripts_run (script stem (B"schema.sql") es)) (scripts_run (script stem (B"indexes.sql") es))
       (scripts_run (script stem (B"constraints.sql") es)) (scripts_run (csvs together stem es)).
  rewrite !script_no_rows, !app_nil_r, csvs_scripts, csvs_rows, !script_called by exact U. split; reflexivity.
Qed.
End Top.
Lemma csv_not_script (e : entry) f : has_suffix (fst e) (B".csv") = true -> In f [B"schema.json"; SCHEMA; INDEXES; CONSTRAINTS] -> beqb (fst e) f = false.
Proof. intros H I. apply beqb_neq. intros E. rewrite E in H. cbn in I. destruct I as [<-|[<-|[<-|[<-|[]]]]]; discriminate. Qed.
Lemma csvs_not_called f (l : list entry) : In f [SCHEMA; INDEXES; CONSTRAINTS] -> (forall e, In e l -> has_suffix (fst e) (B".csv") = true) ->
  filter (fun e : entry => beqb (fst e) f) l = [].
Proof.
  intros I. induction l as [|e l IH]; intros H; [reflexivity|]. cbn [filter].
  rewrite (csv_not_script e f (H e (or_introl eq_refl)) (or_intror I)). apply IH. intros x J. apply H. right. exact J.
Qed.
Lemma called_app f a b : called f (a ++ b) = called f a ++ called f b.
Proof. unfold called. rewrite filter_app, map_app, filter_app. reflexivity. Qed.
Lemma called_csvs f so current c : In f [SCHEMA; INDEXES; CONSTRAINTS] -> called f (csv_entries so current c) = [].
Proof. intros I. unfold called. rewrite csvs_not_called; [reflexivity|exact I|apply csv_entries_csv]. Qed.
Lemma scripts_called so d current c :
  let es := dump_entries so d current c in
  called SCHEMA es ++ called INDEXES es ++ called CONSTRAINTS es =
  filter not_empty (if negb so && d then [] else [dc_schema c; dc_indexes c; dc_constraints c]).
Proof.
  intros es. unfold es. rewrite dump_entries_parts, !called_app, !called_csvs, !app_nil_r
    by (cbn; auto). unfold script_entries. destruct (negb so && d); [reflexivity|].
  change (called SCHEMA _) with (filter not_empty [dc_schema c]). change (called INDEXES _) with (filter not_empty [dc_indexes c]).
  change (called CONSTRAINTS _) with (filter not_empty [dc_constraints c]).
  rewrite <- !filter_app. reflexivity.
Qed.
Lemma csvs_in_dump so d current c : in_csvs (dump_entries so d current c) = csv_entries so current c.
Proof.
  rewrite dump_entries_parts. unfold in_csvs. rewrite filter_app.
  replace (filter _ (script_entries so d c)) with (@nil entry) by (unfold script_entries; destruct (negb so && d); reflexivity).
  cbn [app]. pose proof (csv_entries_csv so current c) as H. induction (csv_entries so current c) as [|e l IH]; [reflexivity|].
  cbn [filter]. rewrite (H e (or_introl eq_refl)), IH; [reflexivity|]. intros x I. apply H. right. exact I.
Qed.
Lemma csv_entries_rows so current c : map snd (csv_entries so current c) = if so then [] else map snd (dc_tables c).
Proof.
  unfold csv_entries. destruct so; [reflexivity|]. rewrite map_map. apply map_ext. intros [[s n] r]. reflexivity.
Qed.
Lemma dump_once so d current c stem f : Forall (fun e : entry => usual_element (fst e)) (dump_entries so d current c) ->
  In f [SCHEMA; INDEXES; CONSTRAINTS] -> at_most_one (is_top stem f) (dump_entries so d current c).
Proof.
  intros U I. unfold at_most_one.
  replace (filter (is_top stem f) (dump_entries so d current c)) with (filter (fun e : entry => beqb (fst e) f) (dump_entries so d current c)).
  2:{ clear I. induction U as [|e es Ue U IH]; [reflexivity|]. cbn [filter]. rewrite (top_is stem f e Ue), IH. reflexivity. }
  rewrite dump_entries_parts, filter_app, (csvs_not_called f (csv_entries so current c) I (csv_entries_csv so current c)), app_nil_r.
  unfold script_entries. destruct (negb so && d); [cbn; lia|].
  cbn in I. destruct I as [<-|[<-|[<-|[]]]]; cbn; lia.
Qed.

(** ** Directories *)
Lemma put_file_perm f c l l' : put_file f c l = Some l' -> ~ In f (map fst l) -> Permutation l' ((f, AFile c) :: l).
Proof.
  revert l'. induction l as [|[g i] l IH]; intros l' E N; cbn [put_file] in E.
  - injection E as <-. reflexivity.
  - destruct (beqb_spec f g) as [->|Nf]; [exfalso; apply N; left; reflexivity|].
    destruct (bltb f g); [injection E as <-; reflexivity|].
    destruct (put_file f c l) as [r|]; [|discriminate]. injection E as <-.
    rewrite (IH r eq_refl) by (intros I; apply N; right; exact I). apply perm_swap.
Qed.
Lemma dump_dir_perm es l l' : dump_dir es l = Some l' -> NoDup (map fst es) -> (forall f, In f (map fst es) -> ~ In f (map fst l)) ->
  Permutation l' (rev (map (fun e : entry => (fst e, AFile (snd e))) es) ++ l).
Proof.
  revert l. induction es as [|[f c] es IH]; intros l E D N; cbn [dump_dir] in E.
  - injection E as <-. reflexivity.
  - destruct (existsb (ceqb SLASH) f); [discriminate|]. destruct (put_file f c l) as [l1|] eqn:P; [|discriminate].
    cbn [map fst] in D. inversion D as [|? ? Nf D']; subst.
    pose proof (put_file_perm f c l l1 P (N f (or_introl eq_refl))) as Q.
    rewrite (IH l1 E D').
    + cbn [map rev fst snd]. rewrite <- app_assoc. cbn [app]. apply Permutation_app_head. exact Q.
    + intros g I J. apply (Permutation_in _ (Permutation_map fst Q)) in J. destruct J as [J|J]; [cbn in J; subst; contradiction|].
      exact (N g (or_intror I) J).
Qed.
Lemma dump_dir_files es l' : dump_dir es [] = Some l' -> NoDup (map fst es) -> Permutation (files_of l') es /\ NoDup (map fst l').
Proof.
  intros E D. pose proof (dump_dir_perm es [] l' E D (fun f _ h => h)) as P. rewrite app_nil_r in P.
  pose proof (Permutation_trans P (Permutation_sym (Permutation_rev _))) as Q. split.
  - unfold files_of. rewrite (Permutation_flat_map _ Q). clear. induction es as [|[f c] es IH]; [reflexivity|].
    cbn [map flat_map fst snd app]. constructor. exact IH.
  - apply (Permutation_NoDup (Permutation_sym (Permutation_map fst Q))). rewrite map_map. exact D.
Qed.
Lemma dump_dir_no_directory es l' f : dump_dir es [] = Some l' -> NoDup (map fst es) -> ~ In (f, ADirectory) l'.
Proof.
  intros E D I. pose proof (dump_dir_perm es [] l' E D (fun f _ h => h)) as P. rewrite app_nil_r in P.
  apply (Permutation_in _ P) in I. apply in_rev in I. apply in_map_iff in I. destruct I as (e & X & _). discriminate.
Qed.
Lemma dump_dir_usual es l' : dump_dir es [] = Some l' -> NoDup (map fst es) -> Forall (fun e : entry => usual_element (fst e)) es ->
  Forall (fun x => usual_element (fst x)) l'.
Proof.
  intros E D U. pose proof (dump_dir_perm es [] l' E D (fun f _ h => h)) as P. rewrite app_nil_r in P.
  rewrite Forall_forall in *. intros x I. apply (Permutation_in _ P) in I. apply in_rev in I. apply in_map_iff in I.
  destruct I as (e & <- & J). exact (U e J).
Qed.
Lemma Permutation_filter {A} (p : A -> bool) a b : Permutation a b -> Permutation (filter p a) (filter p b).
Proof.
  induction 1 as [|x a b P IH|x y a|a b c P1 I1 P2 I2]; cbn [filter]; try reflexivity.
  - destruct (p x); [constructor|]; exact IH.
  - destruct (p x), (p y); try reflexivity. apply perm_swap.
  - rewrite I1. exact I2.
Qed.
Lemma short_perm {A} (a b : list A) : Permutation a b -> (length b <= 1)%nat -> a = b.
Proof.
  intros P L. destruct b as [|x [|y b]]; [apply Permutation_nil; symmetry; exact P| |cbn in L; lia].
  apply Permutation_length_1_inv. symmetry. exact P.
Qed.
Lemma called_perm f a b : Permutation a b -> (length (filter (fun e : entry => beqb (fst e) f) b) <= 1)%nat -> called f a = called f b.
Proof. intros P L. unfold called. rewrite (short_perm _ _ (Permutation_filter (fun e : entry => beqb (fst e) f) a b P) L). reflexivity. Qed.

Theorem C84_partial : C84_claim plain_dump.
Proof.
  intros sqlite so d current c arg n old es W A [Sl R]. fold (SLASH) in Sl.
  pose proof (dump_elements so d current c Sl) as U. fold es in U.
  assert (Un : forall stem, unambiguous stem es) by (intros stem f I; apply dump_once; [exact U|exact I]).
  assert (Us : Forall (fun e : entry => usual_name (fst e)) es) by (eapply Forall_impl; [|exact U]; intros e; apply element_name).
  unfold reload. cbn [load_args]. replace (with_file arg n arg) with (Some n) by (unfold with_file; rewrite beqb_refl; reflexivity).
  assert (X : exists l, stands_for sqlite arg n l /\ load_arg sqlite (fun _ _ => true) arg (Some n) ([], true) = do_all (fun _ _ => true) l ([], true)).
  { destruct W as [| |l l' D V E].
    - apply arg_does; cbn [well_formed usual_node proper]; [intros stem S; apply Un| |exact A|reflexivity]. split; [exact A|]. split; [exact R|exact Us].
    - apply arg_does; cbn [well_formed usual_node proper]; [intros stem S; apply Un| |left; exact A|reflexivity]. split; [left; exact A|exact Us].
    - destruct R as [-> Nd]. apply arg_does; cbn [well_formed usual_node proper]; [|exact I| |reflexivity].
      + split; [apply (dump_dir_files es l' E Nd)|exact (dump_dir_usual es l' E Nd U)].
      + split; [exact A|]. intros f _. exact (dump_dir_no_directory es l' f E Nd). }
  destruct X as (l & St & L). rewrite L, do_all_works by reflexivity. cbv zeta. cbn [snd fst app]. exists l.
  split; [reflexivity|].
  assert (Y : forall together stem, reloaded so d c (documented together stem es)).
  { intros together stem. destruct (documented_reloaded stem together es U) as [Y1 Y2]. split.
    - rewrite Y1. unfold es. rewrite csvs_in_dump, csv_entries_rows. reflexivity.
    - rewrite Y2. apply scripts_called. }
  destruct W as [| |l0 l' D V E].
  - inversion St; subst. apply Y.
  - inversion St; subst. apply Y.
  - inversion St; subst. destruct R as [-> Nd]. destruct (dump_dir_files es l' E Nd) as [P N'].
    assert (U' : Forall (fun e : entry => usual_element (fst e)) (files_of l')).
    { apply files_usual. exact (dump_dir_usual es l' E Nd U). }
    destruct (documented_reloaded None (negb sqlite) (files_of l') U') as [Y1 Y2].
    destruct (Y true None) as [Z1 Z2]. destruct (documented_reloaded None true es U) as [Y1' Y2']. split.
    + rewrite Y1. rewrite Y1' in Z1. rewrite <- Z1. apply Permutation_map. apply Permutation_filter. exact P.
    + rewrite Y2, <- Z2, Y2'.
      assert (F : forall f, In f [SCHEMA; INDEXES; CONSTRAINTS] -> called f (files_of l') = called f es).
      { intros f I. apply called_perm; [exact P|]. pose proof (dump_once so d current c None f U I) as O. unfold at_most_one in O.
        fold es in O. replace (filter (fun e : entry => beqb (fst e) f) es) with (filter (is_top None f) es); [exact O|].
        clear -U. induction U as [|e es Ue U IH]; [reflexivity|]. cbn [filter]. rewrite (top_is None f e Ue), IH. reflexivity. }
      rewrite !F by (cbn; auto). reflexivity.
Qed.

(** ** Where the claim fails *)
Definition a_dump (tables : list (bytes * bytes * bytes)) : dump_contents :=
  DumpContents (B"{}") (B"CREATE TABLE;") (B"CREATE INDEX;") [] tables.
(** A table with a slash in its name: its rows are in the archive but are not loaded. *)
Theorem C84_refuted : ~ C84_full.
Proof.
  intros H.
  destruct (H false false false (B"public") (a_dump [(B"public", B"in/out", B"rows")]) (B"cinema.zip") _ [] (WZip _) eq_refl I) as (did & E & [P _]).
  vm_compute in E. injection E as <-. vm_compute in P. apply Permutation_nil in P. discriminate.
Qed.
(** A file of an earlier dump is loaded as well. *)
Theorem C84_refuted_old : exists es l l', es = dump_entries false false (B"public") (a_dump [(B"public", B"film", B"new")]) /\
  l = [(B"actor.csv", AFile (B"old"))] /\ dump_dir es l = Some l' /\
  reload false (B"db") (Directory l') =
    ([RunScript (B"CREATE TABLE;"); LoadTogether [(B"actor.csv", B"old"); (B"film.csv", B"new")]; RunScript (B"CREATE INDEX;")], true).
Proof. eexists _, _, _. split; [reflexivity|]. split; [reflexivity|]. vm_compute. split; reflexivity. Qed.
(** Two tables whose files have the same name: the rows of one are lost. *)
Theorem C84_refuted_same : exists es l', es = dump_entries false false (B"public") (a_dump [(B"a", B"b.c", B"one"); (B"a.b", B"c", B"two")]) /\
  dump_dir es [] = Some l' /\
  reload false (B"db") (Directory l') = ([RunScript (B"CREATE TABLE;"); LoadTogether [(B"a.b.c.csv", B"two")]; RunScript (B"CREATE INDEX;")], true).
Proof. eexists _, _. split; [reflexivity|]. vm_compute. split; reflexivity. Qed.

(** A dump with two tables. *)
Definition two_tables := a_dump [(B"public", B"film", B"films"); (B"app", B"actor", B"actors")].
Definition two_entries := dump_entries false false (B"public") two_tables.
Example C84_example : reload false (B"cinema.tgz") (Tarred two_entries) =
  ([RunScript (B"CREATE TABLE;"); LoadCsv (B"film.csv") (B"films"); LoadCsv (B"app.actor.csv") (B"actors"); RunScript (B"CREATE INDEX;")], true).
Proof. reflexivity. Qed.
Example C84_example_meets : plain_dump (B"cinema.tgz") two_entries (Tarred two_entries) [] /\
  exists l', written two_entries (Directory l') [] /\ plain_dump (B"db") two_entries (Directory l') [].
Proof.
  assert (Z : Forall (fun e : entry => ~ In "/"%char (fst e)) two_entries).
  { repeat (constructor; [cbn; intros X; repeat destruct X as [X|X]; discriminate || exact X|]). constructor. }
  split; [split; [exact Z|exact I]|]. eexists. split.
  - apply WDir; [constructor|constructor|vm_compute; reflexivity].
  - split; [exact Z|]. split; [reflexivity|].
    repeat (constructor; [cbn; intros X; repeat destruct X as [X|X]; discriminate || exact X|]). constructor.
Qed.
Print Assumptions C84_partial.
Print Assumptions C84_refuted.
