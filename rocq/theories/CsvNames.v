(** Proofs about the names of CSV files. *)
From Verif Require Import GoStr GoStrFacts ModelSq ModelDdl ModelCsv SpecCsv.
From Coq Require Import ZifyBool ZifyNat ZifyN.

Lemma after_last_slash_none s acc : ~ In "/"%char s -> after_last_slash s acc = rev acc ++ s.
Proof.
  revert acc. induction s as [|c s IH]; intros acc H; cbn [after_last_slash]; [symmetry; apply app_nil_r|]. cbn [In] in H.
  destruct (ceqb_spec c "/"%char) as [->|]; [exfalso; auto|]. rewrite IH by auto. cbn [rev]. rewrite <- app_assoc. reflexivity.
Qed.
Lemma basename_none s : ~ In "/"%char s -> basename s = s.
Proof. intros H. unfold basename. rewrite after_last_slash_none by exact H. reflexivity. Qed.
Lemma basename_dir d s : ~ In "/"%char s -> basename (d ++ "/"%char :: s) = s.
Proof.
  intros H. unfold basename. generalize (@nil ascii). induction d as [|c d IH]; intros acc; cbn [app after_last_slash].
  - change (ceqb "/"%char "/"%char) with true. cbv iota. rewrite after_last_slash_none by exact H. reflexivity.
  - destruct (ceqb c "/"%char); apply IH.
Qed.
Lemma in_dir_basename dir s : in_dir dir -> ~ In "/"%char s -> basename (dir ++ s) = s.
Proof. intros [->|(d & ->)] H; [apply basename_none; exact H|]. rewrite <- app_assoc. apply basename_dir. exact H. Qed.

Lemma after_digits_spec s : exists ds, s = ds ++ after_digits s /\ Forall (fun c => is_digit c = true) ds /\ forall c r, after_digits s = c :: r -> is_digit c = false.
Proof.
  induction s as [|c s (ds & E & F & G)]; [exists []; repeat split; [constructor|discriminate]|]. cbn [after_digits]. destruct (is_digit c) eqn:D.
  - exists (c :: ds). split; [cbn [app]; f_equal; exact E|]. split; [constructor; assumption|exact G].
  - exists []. split; [reflexivity|]. split; [constructor|]. intros c' r [= <- <-]. exact D.
Qed.
Lemma after_digits_app ds s : Forall (fun c => is_digit c = true) ds -> after_digits (ds ++ s) = after_digits s.
Proof. induction 1 as [|c ds H Hs IH]; [reflexivity|]. cbn [app after_digits]. rewrite H. exact IH. Qed.
Lemma starts_with_number_iff s : starts_with_number s = true <-> exists ds r, Forall (fun c => is_digit c = true) ds /\ s = ds ++ "_"%char :: r.
Proof.
  unfold starts_with_number. split.
  - intros H. apply has_prefix_iff in H as (r & H). destruct (after_digits_spec s) as (ds & E & F & _). exists ds, r. split; [exact F|]. rewrite E, H. reflexivity.
  - intros (ds & r & F & ->). rewrite after_digits_app by exact F. reflexivity.
Qed.
Lemma digits_no_underscore ds : Forall (fun c => is_digit c = true) ds -> ~ In "_"%char ds.
Proof. intros F I. rewrite Forall_forall in F. apply F in I. discriminate I. Qed.

(** What load makes of a base name. *)
Definition parts (current n : bytes) : bytes * bytes :=
  let (s, t) := match cut_byte "."%char n with Some (a, b) => (a, b) | None => ([], n) end in (if beqb s [] then current else s, t).
Lemma load_name_base current dir n : in_dir dir -> ~ In "/"%char n ->
  load_name current (dir ++ n ++ B".csv")
  = parts current (if starts_with_number n then match cut_byte "_"%char n with Some (_, r) => r | None => n end else n).
Proof.
  intros Hd Hn. unfold load_name. rewrite app_assoc, trim_suffix_app, in_dir_basename by assumption. unfold parts. reflexivity.
Qed.
Lemma load_numbered current dir ds n : in_dir dir -> Forall (fun c => is_digit c = true) ds -> ~ In "/"%char n ->
  load_name current (dir ++ ds ++ "_"%char :: n ++ B".csv") = parts current n.
Proof.
  intros Hd F Hn. replace (dir ++ ds ++ "_"%char :: n ++ B".csv") with (dir ++ (ds ++ "_"%char :: n) ++ B".csv") by (rewrite <- app_assoc; reflexivity).
  rewrite load_name_base.
  - assert (E : starts_with_number (ds ++ "_"%char :: n) = true) by (apply starts_with_number_iff; eauto).
    rewrite E, cut_byte_app by (apply digits_no_underscore; exact F). reflexivity.
  - exact Hd.
  - intros I. apply in_app_or in I as [I|[I|I]]; [|discriminate I|auto]. rewrite Forall_forall in F. apply F in I. discriminate I.
Qed.
Lemma load_plain current dir n : in_dir dir -> ~ numbered n -> ~ In "/"%char n -> load_name current (dir ++ n ++ B".csv") = parts current n.
Proof.
  intros Hd Nn Hn. rewrite load_name_base by assumption. destruct (starts_with_number n) eqn:E; [|reflexivity].
  exfalso. apply Nn, starts_with_number_iff. exact E.
Qed.
Lemma parts_no_dot current n : ~ In "."%char n -> parts current n = (current, n).
Proof. intros H. unfold parts. apply cut_byte_None in H. rewrite H. reflexivity. Qed.
Lemma parts_dot current s t : ~ In "."%char s -> s <> [] -> parts current (s ++ "."%char :: t) = (s, t).
Proof. intros H Hs. unfold parts. rewrite cut_byte_app by exact H. destruct (beqb_spec s []); [contradiction|reflexivity]. Qed.

(** The base name of the file. *)
Definition base (current schema table : bytes) : bytes :=
  (if beqb schema [] || beqb schema current then [] else schema ++ B".") ++ table.
Lemma csv_name_base current schema table : csv_name current schema table = base current schema table ++ B".csv".
Proof. unfold csv_name, base. rewrite app_assoc. reflexivity. Qed.
Lemma base_slash current schema table : ~ In "/"%char schema -> ~ In "/"%char table -> ~ In "/"%char (base current schema table).
Proof.
  intros H1 H2 I. unfold base in I. apply in_app_or in I as [I|I]; [|auto]. destruct (_ || _); [destruct I|].
  apply in_app_or in I as [I|I]; [auto|]. cbn in I. intuition discriminate.
Qed.

Lemma name_ok current dir schema table : in_dir dir -> ~ In "/"%char schema -> ~ In "/"%char table -> name_survives current schema table ->
  load_name current (dir ++ csv_name current schema table) = (if beqb schema [] then current else schema, table).
Proof.
  intros Hd H1 H2 (Nn & Hdot). rewrite csv_name_base. rewrite load_plain; [|exact Hd| |apply base_slash; assumption].
  - unfold base, home in *. destruct (beqb_spec schema []) as [->|N1]; cbn [orb] in *.
    + cbn [app]. apply parts_no_dot. apply Hdot. auto.
    + destruct (beqb_spec schema current) as [->|N2].
      * cbn [app]. apply parts_no_dot. apply Hdot. auto.
      * rewrite <- app_assoc. apply parts_dot; [|exact N1]. apply Hdot. intros [?|?]; contradiction.
  - unfold base, home in *. destruct (beqb_spec schema []) as [->|N1]; cbn [orb] in *; [exact (proj1 Nn (or_introl eq_refl))|].
    destruct (beqb_spec schema current) as [->|N2]; [exact (proj1 Nn (or_intror eq_refl))|].
    intros (ds & r & F & E). rewrite <- app_assoc in E. change (B"." ++ table) with ("."%char :: table) in E.
    assert (X : exists r', schema = ds ++ "_"%char :: r').
    { clear - E F. revert schema E. induction F as [|c ds H F IH]; intros schema E.
      - destruct schema as [|x schema]; cbn in E; [discriminate|]. injection E as -> E. exists schema. reflexivity.
      - destruct schema as [|x schema]; cbn in E; injection E as E1 E2; [subst c; discriminate H|]. destruct (IH schema E2) as (r' & ->). exists r'. rewrite E1. reflexivity. }
    destruct X as (r' & X). apply (proj2 Nn); [intros [?|?]; contradiction|]. exists ds, r'. split; [exact F|exact X].
Qed.

Lemma parts_length current n : fst (parts current n) <> current -> List.length (fst (parts current n)) + S (List.length (snd (parts current n))) = List.length n.
Proof.
  unfold parts. destruct (cut_byte "."%char n) as [[a b]|] eqn:E; [|intros H; exfalso; apply H; reflexivity].
  apply cut_byte_Some in E as [-> _]. rewrite app_length. cbn [Datatypes.length]. destruct (beqb_spec a []) as [->|]; cbn [fst snd]; intros H; [contradiction|reflexivity].
Qed.
Lemma parts_length_le current n : List.length (snd (parts current n)) <= List.length n.
Proof.
  unfold parts. destruct (cut_byte "."%char n) as [[a b]|] eqn:E; [|cbn; lia]. apply cut_byte_Some in E as [-> _]. rewrite app_length. cbn. lia.
Qed.
(** No other names are read back. *)
Lemma name_ok_only current dir schema table : in_dir dir -> ~ In "/"%char schema -> ~ In "/"%char table ->
  load_name current (dir ++ csv_name current schema table) = (if beqb schema [] then current else schema, table) -> name_survives current schema table.
Proof.
  intros Hd H1 H2. rewrite csv_name_base, load_name_base; [|exact Hd|apply base_slash; assumption].
  unfold name_survives, home, base. destruct (beqb_spec schema []) as [->|N1]; cbn [orb].
  - cbn [app]. intros E. destruct (starts_with_number table) eqn:S.
    + exfalso. apply starts_with_number_iff in S as (ds & r & F & ->). rewrite cut_byte_app in E by (apply digits_no_underscore; exact F).
      pose proof (parts_length_le current r) as L. rewrite E in L. cbn [snd] in L. rewrite app_length in L. cbn [Datatypes.length] in L. lia.
    + split; [split; [|intros X; exfalso; apply X; auto]|split; [|intros X; exfalso; apply X; auto]].
      * intros _ X. apply starts_with_number_iff in X. congruence.
      * intros _ I. unfold parts in E. destruct (cut_byte "."%char table) as [[a b]|] eqn:C; [|apply cut_byte_None in C; contradiction].
        apply cut_byte_Some in C as [C _]. injection E as _ E. rewrite C in E. apply (f_equal (@List.length ascii)) in E. rewrite app_length in E. cbn [Datatypes.length] in E. lia.
  - destruct (beqb_spec schema current) as [->|N2].
    + cbn [app]. intros E. destruct (starts_with_number table) eqn:S.
      * exfalso. apply starts_with_number_iff in S as (ds & r & F & ->). rewrite cut_byte_app in E by (apply digits_no_underscore; exact F).
        pose proof (parts_length_le current r) as L. rewrite E in L. cbn [snd] in L. rewrite app_length in L. cbn [Datatypes.length] in L. lia.
      * split; [split; [|intros X; exfalso; apply X; auto]|split; [|intros X; exfalso; apply X; auto]].
        -- intros _ X. apply starts_with_number_iff in X. congruence.
        -- intros _ I. unfold parts in E. destruct (cut_byte "."%char table) as [[a b]|] eqn:C; [|apply cut_byte_None in C; contradiction].
           apply cut_byte_Some in C as [C _]. injection E as _ E. rewrite C in E. apply (f_equal (@List.length ascii)) in E. rewrite app_length in E. cbn [Datatypes.length] in E. lia.
    + rewrite <- app_assoc. change (B"." ++ table) with ("."%char :: table). intros E.
      assert (G : forall n, parts current n = (schema, table) -> List.length n = List.length schema + S (List.length table)).
      { intros n Hp. rewrite <- (parts_length current n); rewrite Hp; [reflexivity|exact N2]. }
      destruct (starts_with_number (schema ++ "."%char :: table)) eqn:S.
      * exfalso. apply starts_with_number_iff in S as (ds & r & F & X). rewrite X, cut_byte_app in E by (apply digits_no_underscore; exact F).
        apply G in E. apply (f_equal (@List.length ascii)) in X. rewrite !app_length in X. cbn [Datatypes.length] in X. lia.
      * split; [split; [intros [X|X]; contradiction|]|split; [intros [X|X]; contradiction|]].
        -- intros _ (ds & r & F & X). assert (Y : starts_with_number (schema ++ "."%char :: table) = true)
             by (apply starts_with_number_iff; exists ds, (r ++ "."%char :: table); split; [exact F|]; rewrite X, <- app_assoc; reflexivity).
           rewrite Y in S. discriminate.
        -- intros _ I. unfold parts in E. destruct (cut_byte "."%char (schema ++ "."%char :: table)) as [[a b]|] eqn:C.
           ++ apply cut_byte_Some in C as [C Na]. destruct (beqb a []) eqn:Ea; injection E as E1 E2; [symmetry in E1; contradiction|]. subst. contradiction.
           ++ apply cut_byte_None in C. apply C. apply in_or_app. right. left. reflexivity.
Qed.

Lemma not_numbered s : has_prefix s (B"_") = false -> (forall ds r, ds <> [] -> Forall (fun c => is_digit c = true) ds -> s <> ds ++ "_"%char :: r) -> ~ numbered s.
Proof.
  intros H1 H2 (ds & r & F & ->). destruct ds as [|c ds]; [discriminate H1|]. exact (H2 (c :: ds) r ltac:(discriminate) F eq_refl).
Qed.
Lemma documented_read current dir n s t : in_dir dir -> ~ In "/"%char n -> documented n s t -> has_prefix n (B"_") = false -> s <> Some [] ->
  load_name current (dir ++ n ++ B".csv") = (match s with Some x => x | None => current end, t).
Proof.
  intros Hd Hs D Hp Hn. destruct D as [t N1 N2|s t N1 N2|ds t N1 F N2|ds s t N1 F N2].
  - rewrite load_plain; [apply parts_no_dot; exact N1|exact Hd|apply not_numbered; assumption|exact Hs].
  - assert (Ns : s <> []) by (intros ->; contradiction). rewrite load_plain; [apply parts_dot; assumption|exact Hd| |exact Hs].
    intros (ds & r & F & E). assert (X : exists r', s = ds ++ "_"%char :: r').
    { clear - E F. revert s E. induction F as [|c ds H F IH]; intros s E.
      - destruct s as [|x s]; cbn in E; [discriminate|]. injection E as -> E. exists s. reflexivity.
      - destruct s as [|x s]; cbn in E; injection E as E1 E2; [subst c; discriminate H|]. destruct (IH s E2) as (r' & ->). exists r'. rewrite E1. reflexivity. }
    destruct X as (r' & ->). destruct ds as [|c ds]; [discriminate Hp|]. exact (N2 (c :: ds) r' ltac:(discriminate) F eq_refl).
  - rewrite <- app_assoc. cbn [app]. rewrite load_numbered; [apply parts_no_dot; exact N2|exact Hd|exact F|]. intros I. apply Hs. apply in_or_app. right. right. exact I.
  - assert (Ns : s <> []) by (intros ->; contradiction). rewrite <- app_assoc. cbn [app].
    rewrite load_numbered; [apply parts_dot; assumption|exact Hd|exact F|]. intros I. apply Hs. apply in_or_app. right. right. exact I.
Qed.
