(** C83: directories and archives are loaded as documented.  C84: what dump has written is loaded. *)
From Coq Require Import Lia Permutation.
From Verif Require Import GoStr GoStrFacts ModelLoadFiles SpecLoadFiles LoadFilesFacts.

(** ** C83 *)
(** Whatever is in the files and whatever fails: if load succeeds it has done what the arguments
    stand for; otherwise it has done the beginning of it; and it succeeds if there is no reason for
    an error. *)
Definition C83_claim (restriction : bytes -> node -> Prop) : Prop :=
  forall sqlite works fs args,
  (forall arg n, In arg args -> fs arg = Some n -> well_formed arg n /\ restriction arg n) ->
  let (did, ok) := load_args sqlite works fs args ([], true) in
  (ok = true -> stand_for sqlite fs args did) /\
  in_order sqlite fs args did /\
  ((forall before a, works before a = true) -> (forall arg, In arg args -> exists n, fs arg = Some n /\ proper arg n) -> ok = true).
Definition C83_full : Prop := C83_claim (fun _ _ => True).

(** The missing part: archives with names such as ./schema.sql, and files whose names do not tell
    what they are. *)
Theorem C83_partial : C83_claim usual_node.
Proof.
  intros sqlite works fs args H.
  destruct (args_follow works sqlite fs args ([], true) H eq_refl) as [A (a1 & a2 & all & rest & E & St & P)].
  destruct (load_args sqlite works fs args ([], true)) as [did ok] eqn:L. cbn [fst snd app] in *.
  split; [intros T; destruct (A T) as (all' & St' & ->); exact St'|].
  split; [exists a1, a2, all, rest; auto|].
  intros Wk Pr. replace ok with (snd (load_args sqlite works fs args ([], true))) by (rewrite L; reflexivity).
  apply args_work; [exact Wk|reflexivity|]. intros arg I. destruct (Pr arg I) as (n & En & Pn). exists n.
  destruct (H arg n I En) as [Wf Us]. auto.
Qed.

(** A tar of the current directory ("tar czf cinema.tgz ."): schema.sql is not run. *)
Definition from_dot : list entry := [(B"./", []); (B"./schema.sql", B"CREATE TABLE film (title TEXT);"); (B"./film.csv", B"title")].
Definition with_file (arg : bytes) (n : node) : bytes -> option node := fun a => if beqb a arg then Some n else None.
Lemma once_check {A} (p : A -> bool) l : Nat.leb (length (filter p l)) 1 = true -> at_most_one p l.
Proof. intros H. apply Nat.leb_le. exact H. Qed.
Lemma stem_unique arg suffix a b : stem_is arg suffix a -> stem_is arg suffix b -> a = b.
Proof.
  intros (d1 & E1 & D1 & I1) (d2 & E2 & D2 & I2).
  assert (E : d1 ++ a = d2 ++ b) by (apply (app_inv_tail suffix); rewrite <- !app_assoc, <- E1, <- E2; reflexivity).
  rewrite <- (basename_stem d1 a I1 D1), E. apply basename_stem; assumption.
Qed.
Theorem C83_refuted : ~ C83_full.
Proof.
  intros H.
  specialize (H false (fun _ _ => true) (with_file (B"cinema.tgz") (Tarred from_dot)) [B"cinema.tgz"]).
  assert (T : stem_is (B"cinema.tgz") (B".tgz") (B"cinema")).
  { exists []. split; [reflexivity|]. split; [left; reflexivity|]. cbn. intros X. repeat destruct X as [X|X]; discriminate || exact X. }
  destruct H as (A & _ & _).
  - intros arg n [<-|[]] E. injection E as <-. split; [|exact I]. intros stem S.
    assert (X : stem = B"cinema").
    { destruct S as [S|S]; [exact (stem_unique _ _ _ _ S T)|]. apply stem_suffix in S. discriminate. }
    subst stem. intros f [<-|[<-|[<-|[]]]]; apply once_check; reflexivity.
  - specialize (A eq_refl). inversion A as [|? ? n l ls En St Rest El E]; subst. injection En as <-. inversion Rest; subst ls.
    inversion St as [| | |stem es S|]; subst.
    assert (X : stem = B"cinema").
    { destruct S as [S|S]; [exact (stem_unique _ _ _ _ S T)|]. apply stem_suffix in S. discriminate. }
    subst stem. vm_compute in E. discriminate.
Qed.
(** A file that load knows nothing about: nothing is done and no error is reported. *)
Theorem C83_refuted_ignored : forall sqlite works c,
  load_args sqlite works (with_file (B"films.txt") (Regular c)) [B"films.txt"] ([], true) = ([], true) /\
  forall did, ~ stand_for sqlite (with_file (B"films.txt") (Regular c)) [B"films.txt"] did.
Proof.
  intros sqlite works c. split; [reflexivity|]. intros did A.
  inversion A as [|? ? n l ls En St Rest]; subst. injection En as <-. inversion St; discriminate.
Qed.

(** Three arguments: a script, an archive with a directory around its files, and a directory. *)
Definition three (arg : bytes) : option node :=
  if beqb arg (B"types.sql") then Some (Regular (B"CREATE DOMAIN a AS INT;"))
  else if beqb arg (B"backup/cinema.zip") then
    Some (Zipped [(B"cinema/", []); (B"cinema/film.csv", B"title"); (B"cinema/actor.csv", B"name");
                  (B"cinema/constraints.sql", B"ALTER 1;"); (B"cinema/schema.sql", B"CREATE 1;");
                  (B"__MACOSX/cinema/._film.csv", B"x"); (B"cinema/old/film.csv", B"y")])
  else if beqb arg (B"more") then
    Some (Directory [(B"actor.csv", AFile (B"name")); (B"indexes.sql", AFile (B"CREATE INDEX;")); (B"old.csv", ADirectory); (B"schema.sql", AFile [])])
  else None.
Example C83_example : forall sqlite,
  load_args sqlite (fun _ _ => true) three [B"types.sql"; B"backup/cinema.zip"; B"more"] ([], true) =
    ([RunScript (B"CREATE DOMAIN a AS INT;"); RunScript (B"CREATE 1;")] ++
     (if sqlite then [LoadCsv (B"cinema/film.csv") (B"title"); LoadCsv (B"cinema/actor.csv") (B"name")]
      else [LoadTogether [(B"cinema/film.csv", B"title"); (B"cinema/actor.csv", B"name")]]) ++
     [RunScript (B"ALTER 1;")] ++
     (if sqlite then [LoadCsv (B"actor.csv") (B"name")] else [LoadTogether [(B"actor.csv", B"name")]]) ++
     [RunScript (B"CREATE INDEX;")], true).
Proof. intros []; vm_compute; reflexivity. Qed.
Lemma usualb (p : bytes) : (let es := split_byte SLASH p in
    forallb (fun e => negb (beqb e []) && negb (beqb e (B".")) && negb (beqb e (B".."))) es) = true -> usual_name p.
Proof.
  intros H. exists (split_byte SLASH p), []. split; [apply split_byte_nonempty|]. split.
  2:{ change (B"/") with [SLASH]. rewrite join_split_byte, app_nil_r. auto. }
  rewrite forallb_forall in H. apply Forall_forall. intros e I. specialize (H e I).
  apply andb_true_iff in H. destruct H as [H H3]. apply andb_true_iff in H. destruct H as [H1 H2].
  apply negb_true_iff, beqb_neq in H1, H2, H3. repeat split; try assumption.
  clear -I. revert e I. induction p as [|x p IH]; intros e I; [destruct I as [<-|[]]; intros []|]. cbn [split_byte] in I.
  destruct (ceqb_spec x SLASH) as [E|N].
  - destruct I as [<-|I]; [intros []|apply IH; exact I].
  - destruct (split_byte SLASH p) as [|w ws]; [destruct I as [<-|[]]; intros [X|[]]; apply N; exact X|].
    destruct I as [<-|I]; [|apply IH; right; exact I]. intros [X|X]; [apply N; exact X|exact (IH w (or_introl eq_refl) X)].
Qed.
Lemma usualb_dir (p : bytes) : usual_name p -> ceqb (last p "x"%char) "/" = false -> usual_name (p ++ B"/").
Proof.
  intros (cs & slash & N & U & E & [-> | ->]) L.
  - exists cs, (B"/"). rewrite E, app_nil_r. auto.
  - exfalso. change (B"/") with [SLASH] in E. rewrite E, last_last in L. discriminate.
Qed.
Example C83_example_meets : forall arg n, In arg [B"types.sql"; B"backup/cinema.zip"; B"more"] -> three arg = Some n ->
  well_formed arg n /\ usual_node arg n /\ proper arg n.
Proof.
  intros arg n [<-|[<-|[<-|[]]]] E; vm_compute in E; injection E as <-.
  - split; [exact I|]. split; left; reflexivity.
  - split; [|split; [split; [reflexivity|split]|reflexivity]].
    + intros stem S. assert (X : stem = B"cinema").
      { apply (stem_unique _ _ _ _ S). exists (B"backup/"). split; [reflexivity|]. split; [right; reflexivity|]. cbn. intros X. repeat destruct X as [X|X]; discriminate || exact X. }
      subst stem. intros f [<-|[<-|[<-|[]]]]; apply once_check; reflexivity.
    + intros S. assert (X : B"__MACOSX" = B"cinema").
      { apply (stem_unique _ _ _ _ S). exists (B"backup/"). split; [reflexivity|]. split; [right; reflexivity|]. cbn. intros X. repeat destruct X as [X|X]; discriminate || exact X. }
      discriminate.
    + constructor; [apply (usualb_dir (B"cinema")); [apply usualb; reflexivity|reflexivity]|].
      repeat (constructor; [apply usualb; reflexivity|]). constructor.
  - split; [split|].
    + repeat (constructor; [cbn; intros X; repeat destruct X as [X|X]; discriminate || exact X|]). constructor.
    + assert (X : forall f : bytes, usual_name f -> ~ In SLASH f -> usual_element f).
      { intros f Uf Sf. destruct (usual_parts f Uf) as (init & g & E & _ & [G|[_ N]]).
        - destruct init; [cbn in E; subst; exact G|]. exfalso. apply Sf. rewrite E. apply in_or_app. left. unfold before. apply in_or_app. right. left. reflexivity.
        - exfalso. apply Sf. rewrite E. apply in_or_app. left. destruct init; [contradiction|]. unfold before. apply in_or_app. right. left. reflexivity. }
      repeat (constructor; [apply X; [apply usualb; reflexivity|cbn; intros Y; repeat destruct Y as [Y|Y]; discriminate || exact Y]|]). constructor.
    + split; [exact I|]. split.
      * intros s [<-|[<-|[<-|[<-|[<-|[]]]]]]; reflexivity.
      * intros f [<-|[<-|[<-|[]]]]; cbn; intros X; repeat destruct X as [X|X]; discriminate || exact X.
Qed.
Print Assumptions C83_partial.
Print Assumptions C83_refuted.
