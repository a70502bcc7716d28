(** C95 and C96: the command line of sqddl.  Model: ModelMain.v;
    specification: SpecMain.v. *)
From Verif Require Import GoStr GoStrFacts ModelMain SpecMain MainFacts.

(** sqddl.md, "Global flags" and "Subcommands". *)
Definition global (n : bytes) : Prop := n = B"db" \/ n = B"history-table".
Definition subcommands : list bytes :=
  map B ["migrate"; "ls"; "touch"; "rm"; "mv"; "tables"; "views"; "generate"; "wipe"; "dump"; "load"; "automigrate"]%string.
(** Global flags with their values, as they are written: both take a text. *)
Definition globals_written (l : list (bytes * bytes)) (ws : list bytes) : Prop :=
  Forall (fun s => global (fst s)) l /\ all_written (fun _ => False) l ws.

(** ** Facts about the tables of flags *)
Lemma look_In : forall A (l : list (string * A)) n a, look l n = Some a -> exists s, In (s, a) l /\ B s = n.
Proof.
  induction l as [|[s x] l IH]; intros n a; cbn [look]; [discriminate|]. destruct (beqb (B s) n) eqn:E.
  - intros H. injection H as <-. exists s. split; [left; reflexivity|apply beqb_eq, E].
  - intros H. destruct (IH n a H) as (t & I & Q). exists t. split; [right; exact I|exact Q].
Qed.
Lemma subcommand_known : forall sub, In sub subcommands <-> exists fs, look command_flags sub = Some fs.
Proof.
  intros sub. split.
  - intros I. unfold subcommands in I. cbn [map] in I. repeat (destruct I as [<-|I]; [eexists; vm_compute; reflexivity|]). destruct I.
  - intros (fs & L). apply look_In in L as (s & I & <-). unfold subcommands. apply in_map. unfold command_flags in I.
    cbn [In] in I. repeat (destruct I as [I|I]; [injection I as <- _; cbn; auto 15|]). destruct I.
Qed.
Lemma globals_everywhere : forall sub fs n, look command_flags sub = Some fs -> global n -> look fs n = Some KString.
Proof.
  intros sub fs n L G. apply look_In in L as (s & I & _). unfold command_flags in I. cbn [In] in I.
  repeat (destruct I as [I|I]; [injection I as _ <-; destruct G as [->| ->]; vm_compute; reflexivity|]). destruct I.
Qed.
Lemma globals_known : forall n, global n -> look globals n = Some KString.
Proof. intros n [->| ->]; vm_compute; reflexivity. Qed.
Lemma globals_only : forall n k, look globals n = Some k -> global n /\ k = KString.
Proof.
  intros n k L. apply look_In in L as (s & I & <-). cbn [In globals] in I. destruct I as [I|[I|[]]]; injection I as <- <-; (split; [|reflexivity]); [left|right]; reflexivity.
Qed.
Lemma sub_not_flag : forall sub, In sub subcommands -> ~ looks_like_flag sub.
Proof.
  intros sub I. unfold subcommands in I. cbn [map] in I. repeat (destruct I as [<-|I]; [intros (c & r & E); discriminate E|]). destruct I.
Qed.
Lemma written_impl : forall (p q : bytes -> Prop) l ws, (forall s, In s l -> (p (fst s) <-> q (fst s))) -> all_written p l ws -> all_written q l ws.
Proof.
  induction l as [|(n, v) l IH]; intros ws H W; cbn [all_written] in *; [exact W|]. destruct W as (a & b & -> & (P & d & D & W) & Wb).
  pose proof (H (n, v) (or_introl eq_refl)) as Hn. cbn [fst] in Hn. exists a, b. split; [reflexivity|]. split; [|apply IH; [intros s I; apply H; right; exact I|exact Wb]].
  split; [exact P|]. exists d. split; [exact D|]. tauto.
Qed.
(** Global flags are parsed by any parser that knows them. *)
Lemma parse_globals : forall int_ok flags l ws tail, (forall n, global n -> flags n = Some KString) -> globals_written l ws ->
  parse int_ok flags (ws ++ tail) = with_settings l (parse int_ok flags tail).
Proof.
  intros int_ok flags l ws tail K (G & W). rewrite Forall_forall in G. apply parse_line.
  - eapply written_impl; [|exact W]. intros s I. specialize (K _ (G s I)). unfold switch. rewrite K. split; [intros []|discriminate].
  - apply Forall_forall. intros s I. exists KString. split; [apply K, G, I|reflexivity].
Qed.
Lemma with_sub : forall l (int_ok : bytes -> bool) run sub rest ws, ~ looks_like_flag sub -> globals_written l ws ->
  main int_ok run (ws ++ sub :: rest) = subcommand int_ok run sub (ws ++ rest).
Proof.
  intros l int_ok run sub rest ws N W. unfold main. rewrite (parse_globals _ _ l ws (sub :: rest) globals_known W).
  assert (parse int_ok (look globals) (sub :: rest) = Parsed [] (sub :: rest)) as -> by (apply parse_arguments; right; split; [reflexivity|exact N]).
  rewrite with_parsed. f_equal. rewrite app_length. replace (List.length ws + List.length (sub :: rest) - List.length (sub :: rest)) with (List.length ws) by lia.
  rewrite firstn_app, Nat.sub_diag, firstn_all. cbn [firstn]. rewrite app_nil_r. reflexivity.
Qed.

(** ** C95: the global flags work before the subcommand as after it *)
(** Whatever follows, well-formed or not. *)
Theorem C95_same : forall int_ok run sub l ws rest, ~ looks_like_flag sub -> globals_written l ws ->
  main int_ok run (ws ++ sub :: rest) = main int_ok run (sub :: ws ++ rest).
Proof.
  intros int_ok run sub l ws rest N W. rewrite (with_sub l) by assumption.
  assert (E : globals_written [] []) by (split; [constructor|reflexivity]). apply (eq_sym (with_sub [] int_ok run sub (ws ++ rest) [] N E)).
Qed.
(** For every subcommand: it is run with the global flags, then its own, and its arguments, and the exit status says
    whether it succeeded. *)
Theorem C95 : forall int_ok (run : bytes -> settings -> list bytes -> bool) sub fs, look command_flags sub = Some fs ->
  forall l ws, globals_written l ws ->
  forall own wo, all_written (switch (look fs)) own wo -> Forall (known int_ok (look fs)) own ->
  forall files wf, arguments files wf ->
  let run_it := {| ran := Some (sub, l ++ own, files); status := if run sub (l ++ own) files then 0 else 1 |} in
  main int_ok run (ws ++ sub :: wo ++ wf) = run_it /\ main int_ok run (sub :: ws ++ wo ++ wf) = run_it.
Proof.
  intros int_ok run sub fs L l ws W own wo Wo K files wf A run_it.
  assert (N : ~ looks_like_flag sub) by (apply sub_not_flag, subcommand_known; eauto).
  assert (E : main int_ok run (ws ++ sub :: wo ++ wf) = run_it).
  { rewrite (with_sub l) by assumption. unfold subcommand. rewrite L.
    rewrite (parse_globals _ _ l ws _ (fun n => globals_everywhere sub fs n L) W), (parse_line _ _ own wo wf Wo K), (parse_arguments _ _ files wf A), !with_parsed.
    rewrite app_nil_r. reflexivity. }
  split; [exact E|]. rewrite <- (C95_same int_ok run sub l ws (wo ++ wf) N W). exact E.
Qed.
(** All of the subcommands know the global flags. *)
Theorem C95_all : forall sub, In sub subcommands -> exists fs, look command_flags sub = Some fs /\ forall n, global n -> look fs n = Some KString.
Proof. intros sub I. apply subcommand_known in I as (fs & L). exists fs. split; [exact L|]. intros n. apply (globals_everywhere sub fs n L). Qed.
(** Two minus signs between the global flags and the subcommand: they are handed on as well, and everything after the
    subcommand is taken for arguments. *)
Theorem C95_dashes : forall int_ok run sub fs l ws rest, look command_flags sub = Some fs -> globals_written l ws ->
  main int_ok run (ws ++ B"--" :: sub :: rest) = {| ran := Some (sub, l, rest); status := if run sub l rest then 0 else 1 |}.
Proof.
  intros int_ok run sub fs l ws rest L W. unfold main. rewrite (parse_globals _ _ l ws (B"--" :: sub :: rest) globals_known W).
  change (parse int_ok (look globals) (B"--" :: sub :: rest)) with (Parsed [] (sub :: rest)). rewrite with_parsed.
  rewrite app_length. cbn [List.length]. replace (List.length ws + S (S (List.length rest)) - S (List.length rest)) with (S (List.length ws)) by lia.
  assert (firstn (S (List.length ws)) (ws ++ B"--" :: sub :: rest) = ws ++ [B"--"]) as ->.
  { rewrite firstn_app, firstn_all2 by lia. replace (S (List.length ws) - List.length ws) with 1 by lia. reflexivity. }
  rewrite <- app_assoc. unfold subcommand. rewrite L, (parse_globals _ _ l ws ([B"--"] ++ rest) (fun n => globals_everywhere sub fs n L) W).
  change (parse int_ok (look fs) ([B"--"] ++ rest)) with (Parsed [] rest). rewrite with_parsed, app_nil_r. reflexivity.
Qed.

(** sqddl -db mydb.sqlite --history-table=h migrate -dir migrations --verbose a.sql *)
Definition G_ex : list (bytes * bytes) := [(B"db", B"mydb.sqlite"); (B"history-table", B"h")].
Definition wg_ex : list bytes := [B"-db"; B"mydb.sqlite"; B"--history-table=h"].
Lemma wg_ex_ok : globals_written G_ex wg_ex.
Proof.
  split; [constructor; [left; reflexivity|constructor; [right; reflexivity|constructor]]|].
  exists [B"-db"; B"mydb.sqlite"], [B"--history-table=h"]. split; [reflexivity|]. split.
  - split; [split; [discriminate|split; [vm_compute; intuition discriminate|discriminate]]|]. exists (B"-"). split; [left; reflexivity|]. right. left. split; [intros []|reflexivity].
  - exists [B"--history-table=h"], []. split; [reflexivity|]. split; [|reflexivity].
    split; [split; [discriminate|split; [vm_compute; intuition discriminate|discriminate]]|]. exists (B"--"). split; [right; reflexivity|]. left. reflexivity.
Qed.
Example C95_example : exists fs own wo, look command_flags (B"migrate") = Some fs /\ globals_written G_ex wg_ex /\
  all_written (switch (look fs)) own wo /\ Forall (known (fun _ => true) (look fs)) own /\ arguments [B"a.sql"] [B"a.sql"] /\
  main (fun _ => true) (fun _ _ _ => true) (map B ["-db"; "mydb.sqlite"; "--history-table=h"; "migrate"; "-dir"; "migrations"; "--verbose"; "a.sql"]%string)
  = {| ran := Some (B"migrate", [(B"db", B"mydb.sqlite"); (B"history-table", B"h"); (B"dir", B"migrations"); (B"verbose", B"true")], [B"a.sql"]); status := 0 |}.
Proof.
  eexists. exists [(B"dir", B"migrations"); (B"verbose", B"true")], [B"-dir"; B"migrations"; B"--verbose"]. split; [vm_compute; reflexivity|]. split; [exact wg_ex_ok|]. split.
  { exists [B"-dir"; B"migrations"], [B"--verbose"]. split; [reflexivity|]. split.
    - split; [split; [discriminate|split; [vm_compute; intuition discriminate|discriminate]]|]. exists (B"-"). split; [left; reflexivity|]. right. left. split; [vm_compute; discriminate|reflexivity].
    - exists [B"--verbose"], []. split; [reflexivity|]. split; [|reflexivity].
      split; [split; [discriminate|split; [vm_compute; intuition discriminate|discriminate]]|]. exists (B"--"). split; [right; reflexivity|]. right. right. split; [vm_compute; reflexivity|split; reflexivity]. }
  split. { constructor; [exists KString; split; vm_compute; reflexivity|]. constructor; [exists KBool; split; vm_compute; reflexivity|constructor]. }
  split. { right. split; [reflexivity|]. intros (c & r & E). discriminate E. }
  vm_compute. reflexivity.
Qed.

(** ** C96: exit status 0 means that a subcommand was run and succeeded, or that help was asked for *)
Definition done (run : bytes -> settings -> list bytes -> bool) (o : outcome) : Prop :=
  exists sub s files, ran o = Some (sub, s, files) /\ run sub s files = true.
Definition C96_full : Prop := forall int_ok run args, status (main int_ok run args) = 0 ->
  done run (main int_ok run args) \/ exists w, In w args /\ help_word w.

(** sqddl migrte -db mydb.sqlite -dir migrations: nothing is migrated, and the exit status is 0. *)
Definition misspelt : list bytes := map B ["migrte"; "-db"; "mydb.sqlite"; "-dir"; "migrations"]%string.
Lemma not_help : forall w, In w misspelt -> ~ help_word w.
Proof.
  intros w I (d & n & D & N & E). unfold misspelt in I. cbn [map In] in I.
  repeat (destruct I as [<-|I]; [destruct D as [->| ->], N as [->| ->]; destruct E as [E|(v & E)]; vm_compute in E; discriminate E|]). destruct I.
Qed.
Theorem C96_refuted : ~ C96_full /\ forall int_ok run, main int_ok run misspelt = nothing 0.
Proof.
  assert (M : forall int_ok run, main int_ok run misspelt = nothing 0) by (intros; reflexivity).
  split; [|exact M]. intros H. specialize (H (fun _ => true) (fun _ _ _ => true) misspelt). rewrite M in H. destruct (H eq_refl) as [(sub & s & files & E & _)|(w & I & W)].
  - discriminate E.
  - apply (not_help w I W).
Qed.
(** A command line that ends before the subcommand: the same. *)
Theorem C96_refuted_missing : forall int_ok run, main int_ok run wg_ex = nothing 0 /\ forall w, In w wg_ex -> ~ help_word w.
Proof.
  intros int_ok run. split; [reflexivity|]. intros w I (d & n & D & N & E). unfold wg_ex in I. cbn [In] in I.
  repeat (destruct I as [<-|I]; [destruct D as [->| ->], N as [->| ->]; destruct E as [E|(v & E)]; vm_compute in E; discriminate E|]). destruct I.
Qed.

(** What is missing: subcommands that do not exist, and no subcommand.  In all other cases it is true. *)
Definition no_subcommand (args : list bytes) : Prop :=
  exists l ws rest tail, args = ws ++ tail /\ globals_written l ws /\ arguments rest tail /\
    match rest with [] => True | sub :: _ => ~ In sub subcommands end.
Theorem C96_partial : forall int_ok run args, status (main int_ok run args) = 0 ->
  done run (main int_ok run args) \/ (exists w, In w args /\ help_word w) \/ (ran (main int_ok run args) = None /\ no_subcommand args).
Proof.
  intros int_ok run args. unfold main. destruct (parse int_ok (look globals) args) as [l rest| |] eqn:P.
  - destruct (parse_inv _ _ _ _ _ _ (le_n _) P) as (ws & tail & E & W & A & K).
    assert (G : globals_written l ws).
    { rewrite Forall_forall in K. assert (G : forall s, In s l -> global (fst s)).
      { intros s I. destruct (K s I) as (k & L & _). apply (globals_only _ _ L). }
      split; [apply Forall_forall; exact G|]. eapply written_impl; [|exact W]. intros s I. unfold switch. rewrite (globals_known _ (G s I)). split; [discriminate|intros []]. }
    destruct rest as [|sub rest].
    + intros _. right. right. split; [reflexivity|]. exists l, ws, [], tail. auto.
    + unfold subcommand. destruct (look command_flags sub) as [fs|] eqn:L.
      * destruct (parse int_ok (look fs) _) as [s files| |] eqn:Q.
        -- cbn [status]. destruct (run sub s files) eqn:R; [|discriminate]. intros _. left. exists sub, s, files. split; [reflexivity|exact R].
        -- intros _. right. left. destruct (parse_help _ _ _ _ (le_n _) Q) as (w & I & H). exists w. split; [|exact H].
           apply in_app_iff in I as [I|I]; [rewrite <- (firstn_skipn (List.length args - List.length (sub :: rest)) args); apply in_app_iff; left; exact I|]. rewrite E. apply in_app_iff. right. destruct A as [->|(-> & _)]; [right|]; right; exact I.
        -- discriminate.
      * intros _. right. right. split; [reflexivity|]. exists l, ws, (sub :: rest), tail. split; [exact E|]. split; [exact G|]. split; [exact A|].
        intros I. apply subcommand_known in I as (fs & F). rewrite L in F. discriminate F.
  - intros _. right. left. apply (parse_help _ _ _ _ (le_n _) P).
  - discriminate.
Qed.
(** A subcommand that is run gives status 0 exactly if it succeeds. *)
Theorem C96_run : forall int_ok run args sub s files, ran (main int_ok run args) = Some (sub, s, files) ->
  In sub subcommands /\ (status (main int_ok run args) = 0 <-> run sub s files = true).
Proof.
  intros int_ok run args sub s files. unfold main. destruct (parse int_ok (look globals) args) as [l rest| |]; try discriminate. destruct rest as [|sub' rest]; [discriminate|].
  unfold subcommand. destruct (look command_flags sub') as [fs|] eqn:L; [|discriminate]. destruct (parse int_ok (look fs) _) as [s' files'| |]; try discriminate.
  cbn [ran status]. intros E. injection E as -> -> ->. split; [apply subcommand_known; eauto|]. destruct (run sub s files); split; congruence.
Qed.

Print Assumptions C95.
Print Assumptions C95_same.
Print Assumptions C95_dashes.
Print Assumptions C96_refuted.
Print Assumptions C96_partial.
Print Assumptions C96_run.
