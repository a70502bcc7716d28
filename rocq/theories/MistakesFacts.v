(** Facts for C121: the reports of each part of a tag. *)
From Coq Require Import Lia.
From Verif Require Import GoStr GoStrFacts ModelDdl ModelModifier ModelCatalog ModelCache ModelDiff ModelStructs ModelParser ParserFacts ModelMistakes SpecMistakes.

Lemma not_panic m : parsed_value m <> Panic.
Proof. destruct (parsed_total m) as (r & -> & N). exact N. Qed.
Lemma rule_known d v : rule_of d v = None <-> ~ In v rule_words.
Proof.
  unfold rule_of, rule_words. cbn [map In].
  destruct (beqb_spec v (B"cascade")); [split; [discriminate|intros H; exfalso; apply H; auto 10]|].
  destruct (beqb_spec v (B"restrict")); [split; [discriminate|intros H; exfalso; apply H; auto 10]|].
  destruct (beqb_spec v (B"noaction")); [split; [discriminate|intros H; exfalso; apply H; auto 10]|].
  destruct (beqb_spec v (B"setnull")); [split; [discriminate|intros H; exfalso; apply H; auto 10]|].
  destruct (beqb_spec v (B"setdefault")); [split; [discriminate|intros H; exfalso; apply H; auto 10]|].
  destruct v as [|x v]; cbn [is_empty]; [split; [discriminate|intros H; exfalso; apply H; cbn; auto 10]|].
  split; [|reflexivity]. intros _ I. repeat (destruct I as [I|I]; [try (symmetry in I; contradiction); discriminate I|]). exact I.
Qed.
Ltac names := repeat match goal with |- context [beqb ?v ?x] => destruct (beqb_spec v x) end.
(** ** Parts without parts *)
Lemma wrong_word d own m path c : ~ wrong d Word own m path c.
Proof. intros W. inversion W; subst; try (match goal with H : compound Word |- _ => cbn in H; intuition discriminate end). match goal with H : In Word _ |- _ => cbn in H; intuition discriminate end. Qed.
Ltac not_compound := match goal with H : compound _ |- _ => exfalso; cbn in H; intuition discriminate | H : In _ [Index; Key] |- _ => exfalso; cbn in H; intuition discriminate end.
Lemma wrong_rule d own m path c : wrong d Rule own m path c <-> path = [] /\ c = UnknownValue (m_raw m) /\ ~ In (m_raw m) rule_words.
Proof. split; [intros W; inversion W; subst; try not_compound; auto|intros (-> & -> & N); constructor; exact N]. Qed.
Lemma wrong_dialect d own m path c : wrong d Dialects own m path c <-> path = [] /\ c = BlankDialect /\ m_raw m = [].
Proof. split; [intros W; inversion W; subst; try not_compound; auto|intros (-> & -> & N); constructor; exact N]. Qed.
(** ** Indexes and keys *)
Definition simple (p : part) : Prop := p = Index \/ p = Key.
Lemma simple_inside p n q : simple p -> inside p n = Some q -> q = Word.
Proof. intros [->| ->]; unfold inside; cbn [names_of map lookup]; names; congruence. Qed.
Lemma simple_path d p own m path c : simple p -> wrong d p own m path c -> path = [].
Proof.
  intros S W. inversion W; subst; try reflexivity. exfalso.
  match goal with H : inside p _ = Some _ |- _ => apply (simple_inside p _ _ S) in H; subst end. eapply wrong_word; eassumption.
Qed.
Lemma sub_spec d p keys m k c : simple p ->
  In (k, c) ((if match p with Index => true | _ => false end then index_sub_notes else key_sub_notes) d keys m) <->
  k = keys /\ excluded d m = false /\ inside p (m_name m) = None /\ c = UnknownModifier (m_name m).
Proof.
  intros [->| ->]; unfold index_sub_notes, key_sub_notes, inside; cbn [names_of map lookup]; destruct (excluded d m); cbn [In]; try (intuition discriminate);
    names; cbn [In]; split; intros H; try (destruct H as (? & ? & ? & ?); discriminate); try destruct H as [H|[]]; try contradiction.
  all: try (injection H as <- <-; auto). all: destruct H as (-> & _ & _ & ->); left; reflexivity.
Qed.
Definition simple_notes (p : part) := match p with Index => index_notes | _ => key_notes end.
Lemma simple_spec d p columns keys m k c : simple p -> In (k, c) (simple_notes p d columns keys m) <-> k = keys /\ wrong d p columns m [] c.
Proof.
  intros S.
  assert (E : simple_notes p d columns keys m = match parsed_value m with
    | Err => [(keys, BadModifier (m_raw m))] | Panic => []
    | Ok m' => (if negb (own_value (m_value m')) && none columns then [(keys, NoColumn)] else []) ++
        flat_map ((if match p with Index => true | _ => false end then index_sub_notes else key_sub_notes) d keys) (m_subs m') end).
  { destruct S as [->| ->]; reflexivity. }
  rewrite E. clear E. assert (C : compound p) by (destruct S as [->| ->]; cbn; auto). assert (C2 : In p [Index; Key]) by (destruct S as [->| ->]; cbn; auto).
  assert (F : forall m', open p m') by (intros m' ->; destruct S; discriminate).
  pose proof (not_panic m) as NP. destruct (parsed_value m) as [m'| |] eqn:P; [| |contradiction].
  - rewrite in_app_iff, in_flat_map. split.
    + intros [I|(s & I & H)].
      * destruct (own_value (m_value m')) eqn:O; [destruct I|]. destruct columns; [|destruct I]. destruct I as [I|[]]. apply pair_equal_spec in I; destruct I as (<- & <-). split; [reflexivity|]. eapply w_no_column; eassumption.
      * apply (sub_spec d p) in H; [|exact S]. destruct H as (-> & X & N & ->). split; [reflexivity|]. eapply w_unknown; eauto.
    + intros (-> & W). inversion W; subst; try congruence.
      * left. match goal with H : parsed_value m = Ok _ |- _ => rewrite P in H; injection H as <- end. match goal with H : own_value _ = false |- _ => rewrite H end. left. reflexivity.
      * destruct S; discriminate.
      * destruct S; discriminate.
      * destruct S; discriminate.
      * destruct S; discriminate.
      * destruct S; discriminate.
      * right. match goal with H : parsed_value m = Ok _ |- _ => rewrite P in H; injection H as <- end. eexists. split; [eassumption|]. apply (sub_spec d p); auto.
  - cbn [In]. split.
    + intros [I|[]]. apply pair_equal_spec in I; destruct I as (<- & <-). split; [reflexivity|]. constructor; assumption.
    + intros (-> & W). inversion W; subst; try congruence; try (destruct S; discriminate). left. reflexivity.
Qed.
Lemma index_spec d columns keys m k c : In (k, c) (index_notes d columns keys m) <-> k = keys /\ wrong d Index columns m [] c.
Proof. apply (simple_spec d Index). left. reflexivity. Qed.
Lemma key_spec d columns keys m k c : In (k, c) (key_notes d columns keys m) <-> k = keys /\ wrong d Key columns m [] c.
Proof. apply (simple_spec d Key). right. reflexivity. Qed.

(** ** Foreign keys *)
Definition foreign_part (own : bool) : part := if own then Foreign else References.
(** One submodifier is wrong, [path] leads there from the foreign key. *)
Definition sub_wrong (d : dialect) (p : part) (columns : list bytes) (s : modifier) (path : list bytes) (c : complaint) : Prop :=
  excluded d s = false /\ (inside p (m_name s) = None /\ path = [] /\ c = UnknownModifier (m_name s) \/
    exists q path', inside p (m_name s) = Some q /\ path = m_name s :: path' /\ wrong d q columns s path' c).
Lemma step_spec d own columns keys m k c :
  In (k, c) (snd (foreign_step d own columns keys m)) <-> exists path, sub_wrong d (foreign_part own) columns m path c /\ k = keys ++ path.
Proof.
  unfold foreign_step, sub_wrong. destruct (excluded d m); cbn [snd In]; [split; [intros []|intros (path & (N & _) & _); discriminate N]|].
  assert (Word_case : forall x, inside (foreign_part own) (m_name m) = Some Word -> In x (@nil note) <-> exists path, (false = false /\ (inside (foreign_part own) (m_name m) = None /\ path = [] /\ c = UnknownModifier (m_name m) \/
    exists q path', inside (foreign_part own) (m_name m) = Some q /\ path = m_name m :: path' /\ wrong d q columns m path' c)) /\ k = keys ++ path).
  { intros x E. split; [intros []|]. intros (path & (_ & [(N & _)|(q & path' & Q & _ & W)]) & _); [congruence|]. rewrite E in Q. injection Q as <-. destruct (wrong_word _ _ _ _ _ W). }
  assert (Some_case : forall q l, inside (foreign_part own) (m_name m) = Some q ->
    (In (k, c) l <-> exists path', wrong d q columns m path' c /\ k = keys ++ m_name m :: path') ->
    (In (k, c) l <-> exists path, (false = false /\ (inside (foreign_part own) (m_name m) = None /\ path = [] /\ c = UnknownModifier (m_name m) \/
      exists q path', inside (foreign_part own) (m_name m) = Some q /\ path = m_name m :: path' /\ wrong d q columns m path' c)) /\ k = keys ++ path)).
  { intros q l E H. rewrite H. split.
    - intros (path' & W & ->). exists (m_name m :: path'). split; [split; [reflexivity|right; eauto]|reflexivity].
    - intros (path & (_ & [(N & _)|(q' & path' & Q & -> & W)]) & ->); [congruence|]. rewrite E in Q. injection Q as <-. eauto. }
  destruct (beqb_spec (m_name m) (B"references")) as [E|N1].
  - destruct own; cbn [andb].
    + apply Word_case. rewrite E. reflexivity.
    + rewrite E. change (inside (foreign_part false) (B"references")) with (@None part). cbn [beqb].
      change (beqb (B"references") (B"onupdate")) with false. change (beqb (B"references") (B"ondelete")) with false. change (beqb (B"references") (B"deferrable")) with false.
      change (beqb (B"references") (B"deferred")) with false. change (beqb (B"references") (B"index")) with false. cbn [orb snd In]. split.
      * intros [I|[]]. apply pair_equal_spec in I; destruct I as (<- & <-). exists []. rewrite app_nil_r. split; [split; [reflexivity|left; repeat split; auto]|reflexivity].
      * intros (path & (_ & [(_ & -> & ->)|(q & path' & Q & _)]) & ->); [left; rewrite app_nil_r; reflexivity|discriminate Q].
  - assert (R : own && false = false) by (destruct own; reflexivity). rewrite R.
    assert (EI : forall q, (if beqb (m_name m) (B"onupdate") then Some Rule else if beqb (m_name m) (B"ondelete") then Some Rule else if beqb (m_name m) (B"index") then Some Index
      else if beqb (m_name m) (B"deferrable") then Some Word else if beqb (m_name m) (B"deferred") then Some Word else None) = q -> inside (foreign_part own) (m_name m) = q).
    { intros q <-. unfold inside, foreign_part. destruct own; cbn [names_of lookup]; [|reflexivity]. destruct (beqb_spec (m_name m) (B"references")); [contradiction|reflexivity]. }
    assert (Rule_case : inside (foreign_part own) (m_name m) = Some Rule ->
      In (k, c) (snd (match rule_of d (m_raw m) with Some _ => (keys, []) | None => (keys ++ [m_name m], [(keys ++ [m_name m], UnknownValue (m_raw m))]) end)) <->
      exists path, (false = false /\ (inside (foreign_part own) (m_name m) = None /\ path = [] /\ c = UnknownModifier (m_name m) \/
      exists q path', inside (foreign_part own) (m_name m) = Some q /\ path = m_name m :: path' /\ wrong d q columns m path' c)) /\ k = keys ++ path).
    { intros E. apply (Some_case Rule _ E). pose proof (rule_known d (m_raw m)) as K. destruct (rule_of d (m_raw m)) as [r|]; cbn [snd In].
      - split; [intros []|]. intros (path' & W & _). apply wrong_rule in W. destruct W as (_ & _ & N). apply K in N. discriminate N.
      - split.
        + intros [I|[]]. apply pair_equal_spec in I; destruct I as (<- & <-). exists []. split; [|reflexivity]. apply wrong_rule. split; [reflexivity|]. split; [reflexivity|]. apply K. reflexivity.
        + intros (path' & W & ->). apply wrong_rule in W. destruct W as (-> & -> & _). left. reflexivity. }
    destruct (beqb_spec (m_name m) (B"onupdate")) as [E|N2]; cbn [orb]; [apply Rule_case, EI; reflexivity|].
    destruct (beqb_spec (m_name m) (B"ondelete")) as [E|N3]; [apply Rule_case, EI; reflexivity|].
    destruct (beqb_spec (m_name m) (B"deferrable")) as [E|N4]; [apply Word_case, EI; rewrite E; reflexivity|].
    destruct (beqb_spec (m_name m) (B"deferred")) as [E|N5]; [apply Word_case, EI; rewrite E; reflexivity|].
    destruct (beqb_spec (m_name m) (B"index")) as [E|N6]; cbn [snd].
    + apply (Some_case Index); [apply EI; reflexivity|]. rewrite index_spec. split.
      * intros (-> & W). exists []. auto.
      * intros (path' & W & ->). pose proof (simple_path d Index _ _ _ _ (or_introl eq_refl) W). subst path'. auto.
    + assert (Q : inside (foreign_part own) (m_name m) = None) by (apply EI; reflexivity). cbn [In]. split.
      * intros [I|[]]. apply pair_equal_spec in I; destruct I as (<- & <-). exists []. rewrite app_nil_r. split; [split; [reflexivity|left; repeat split; auto]|reflexivity].
      * intros (path & (_ & [(_ & -> & ->)|(q & path' & Q' & _)]) & ->); [left; rewrite app_nil_r; reflexivity|congruence].
Qed.
(** The keys after some submodifiers. *)
Fixpoint keys_after (d : dialect) (own : bool) (columns keys : list bytes) (l : list modifier) : list bytes :=
  match l with [] => keys | m :: l' => keys_after d own columns (fst (foreign_step d own columns keys m)) l' end.
Lemma subs_spec d own columns l : forall keys k c, In (k, c) (foreign_subs d own columns keys l) <->
  exists a s b path, l = a ++ s :: b /\ sub_wrong d (foreign_part own) columns s path c /\ k = keys_after d own columns keys a ++ path.
Proof.
  induction l as [|m l IH]; intros keys k c; cbn [foreign_subs]; [split; [intros []|intros ([|? a] & s & b & path & E & _); discriminate E]|].
  pose proof (step_spec d own columns keys m k c) as S. destruct (foreign_step d own columns keys m) as [keys' ns] eqn:F. cbn [snd] in S. rewrite in_app_iff, S, IH. split.
  - intros [(path & W & ->)|(a & s & b & path & -> & W & ->)].
    + exists [], m, l, path. auto.
    + exists (m :: a), s, b, path. cbn [keys_after app]. rewrite F. auto.
  - intros ([|x a] & s & b & path & E & W & ->); injection E as <- ->.
    + left. exists path. auto.
    + right. exists a, s, b, path. cbn [keys_after]. rewrite F. auto.
Qed.
Lemma step_keys d own columns keys m : ~ lengthens d (foreign_part own) m -> fst (foreign_step d own columns keys m) = keys.
Proof.
  intros N. unfold lengthens in N. unfold foreign_step. destruct (excluded d m) eqn:X; [reflexivity|].
  destruct (own && beqb (m_name m) (B"references")) eqn:R; [reflexivity|].
  destruct (beqb_spec (m_name m) (B"onupdate")) as [E|_]; cbn [orb].
  - destruct (rule_of d (m_raw m)) eqn:K; [reflexivity|]. exfalso. apply N. split; [reflexivity|]. right. split; [|apply (rule_known d), K]. rewrite E. destruct own; reflexivity.
  - destruct (beqb_spec (m_name m) (B"ondelete")) as [E|_].
    + destruct (rule_of d (m_raw m)) eqn:K; [reflexivity|]. exfalso. apply N. split; [reflexivity|]. right. split; [|apply (rule_known d), K]. rewrite E. destruct own; reflexivity.
    + destruct (beqb (m_name m) (B"deferrable")); [reflexivity|]. destruct (beqb (m_name m) (B"deferred")); [reflexivity|].
      destruct (beqb_spec (m_name m) (B"index")) as [E|_]; [|reflexivity]. exfalso. apply N. split; [reflexivity|]. left. rewrite E. destruct own; reflexivity.
Qed.
Lemma harmless_right d p columns s path c : harmless d p s -> ~ sub_wrong d p columns s path c.
Proof.
  intros [X|(q & Q & H)] (X' & W); [congruence|]. destruct W as [(N & _)|(q' & path' & Q' & _ & W)]; [congruence|]. rewrite Q in Q'. injection Q' as <-.
  destruct H as [->|(-> & I)]; [exact (wrong_word _ _ _ _ _ W)|]. apply wrong_rule in W. tauto.
Qed.
Lemma straight_keys d own columns keys a s b path c : straight d (foreign_part own) (a ++ s :: b) -> sub_wrong d (foreign_part own) columns s path c ->
  keys_after d own columns keys a = keys.
Proof.
  revert keys. induction a as [|m a IH]; intros keys S W; [reflexivity|]. cbn [keys_after].
  assert (N : ~ lengthens d (foreign_part own) m).
  { intros L. specialize (S [] m (a ++ s :: b) eq_refl L). rewrite Forall_forall in S. specialize (S s (in_elt _ _ _)). exact (harmless_right _ _ _ _ _ _ S W). }
  rewrite step_keys by exact N. apply IH; [|exact W]. intros a' s' b' E L. apply (S (m :: a') s' b'); [cbn; rewrite E; reflexivity|exact L].
Qed.
(** With and without straightness. *)
Lemma subs_complaints d own columns keys l c : (exists k, In (k, c) (foreign_subs d own columns keys l)) <-> exists s path, In s l /\ sub_wrong d (foreign_part own) columns s path c.
Proof.
  split.
  - intros (k & I). apply subs_spec in I. destruct I as (a & s & b & path & -> & W & _). exists s, path. split; [apply in_elt|exact W].
  - intros (s & path & I & W). apply in_split in I. destruct I as (a & b & ->). eexists. apply subs_spec. exists a, s, b, path. auto.
Qed.
Lemma subs_paths d own columns keys l k c : straight d (foreign_part own) l ->
  In (k, c) (foreign_subs d own columns keys l) <-> exists s path, In s l /\ sub_wrong d (foreign_part own) columns s path c /\ k = keys ++ path.
Proof.
  intros S. rewrite subs_spec. split.
  - intros (a & s & b & path & -> & W & ->). exists s, path. split; [apply in_elt|]. split; [exact W|]. rewrite (straight_keys d own columns keys a s b path c S W). reflexivity.
  - intros (s & path & I & W & ->). apply in_split in I. destruct I as (a & b & ->). exists a, s, b, path. split; [reflexivity|]. split; [exact W|]. rewrite (straight_keys d own columns keys a s b path c S W). reflexivity.
Qed.

(** ** Whole modifiers *)
(** [fits loose ns W]: the reports [ns] are the mistakes [W], and each has its own path unless [loose]. *)
Definition fits (loose : bool) (ns : list note) (W : list bytes -> complaint -> Prop) : Prop :=
  (forall k c, In (k, c) ns -> exists path, W path c /\ (loose = true \/ k = path)) /\
  (forall path c, W path c -> exists k, In (k, c) ns /\ (loose = true \/ k = path)).
Lemma fits_exact ns W : (forall k c, In (k, c) ns <-> W k c) -> forall loose, fits loose ns W.
Proof. intros H loose. split; [intros k c I; exists k; split; [apply H, I|auto]|intros path c X; exists path; split; [apply H, X|auto]]. Qed.
Lemma fits_same loose ns W W' : (forall path c, W path c <-> W' path c) -> fits loose ns W -> fits loose ns W'.
Proof.
  intros E (A & C). split.
  - intros k c I. destruct (A k c I) as (path & X & L). exists path. split; [apply E, X|exact L].
  - intros path c X. apply (C path c), E, X.
Qed.
Definition below (n : bytes) (W : list bytes -> complaint -> Prop) : list bytes -> complaint -> Prop := fun path c => exists path', path = n :: path' /\ W path' c.
Definition both (W W' : list bytes -> complaint -> Prop) : list bytes -> complaint -> Prop := fun path c => W path c \/ W' path c.
Lemma fits_app loose ns ns' W W' : fits loose ns W -> fits loose ns' W' -> fits loose (ns ++ ns') (both W W').
Proof.
  intros (A & C) (A' & C'). split.
  - intros k c I. apply in_app_or in I. destruct I as [I|I]; [destruct (A k c I) as (path & X & L)|destruct (A' k c I) as (path & X & L)]; exists path; split; auto; [left|right]; exact X.
  - intros path c [X|X]; [destruct (C path c X) as (k & I & L)|destruct (C' path c X) as (k & I & L)]; exists k; split; auto; apply in_or_app; auto.
Qed.
Lemma fits_none loose W : (forall path c, ~ W path c) -> fits loose [] W.
Proof. intros N. split; [intros k c []|intros path c X; destruct (N _ _ X)]. Qed.
Lemma fits_one loose k c W : (forall path c', W path c' <-> path = k /\ c' = c) -> fits loose [(k, c)] W.
Proof. intros H. apply fits_exact. intros k' c'. rewrite H. cbn [In]. split; [intros [I|[]]; apply pair_equal_spec in I; destruct I; auto|intros (-> & ->); auto]. Qed.
Lemma simple_fits loose d p own n m : simple p -> fits loose (simple_notes p d own [n] m) (below n (wrong d p own m)).
Proof.
  intros S. apply fits_exact. intros k c. rewrite (simple_spec d p own [n] m k c S). unfold below. split.
  - intros (-> & W). exists []. auto.
  - intros (path' & -> & W). pose proof (simple_path d p _ _ _ _ S W). subst path'. auto.
Qed.
Lemma subs_fits loose d own columns n l : loose = true \/ straight d (foreign_part own) l ->
  fits loose (foreign_subs d own columns [n] l) (below n (fun path c => exists s, In s l /\ sub_wrong d (foreign_part own) columns s path c)).
Proof.
  intros [->|S].
  - split.
    + intros k c I. destruct (proj1 (subs_complaints d own columns [n] l c) (ex_intro _ k I)) as (s & path & I' & W). exists (n :: path). split; [exists path; eauto|auto].
    + intros path c (path' & -> & s & I & W). destruct (proj2 (subs_complaints d own columns [n] l c)) as (k & I'); [eauto|]. exists k. auto.
  - apply fits_exact. intros k c. rewrite (subs_paths d own columns [n] l k c S). unfold below. split.
    + intros (s & path & I & W & ->). exists path. split; [reflexivity|eauto].
    + intros (path' & -> & s & I & W). exists s, path'. auto.
Qed.
(** What is wrong in a foreign key that can be read. *)
Lemma wrong_subs d p own m m' path c : In p [Foreign; References] -> parsed_value m = Ok m' ->
  wrong d p own m path c <->
  (path = [] /\ (p = Foreign /\ own_value (m_value m') = false /\ c = NoColumn \/ p = Foreign /\ own_value (m_value m') = true /\ m_subs m' = [] /\ c = NoReference \/ p = References /\ own = [[]] /\ c = NoColumn)) \/
  (open p m' /\ exists s, In s (m_subs m') /\ sub_wrong d p (columns_for p own m') s path c).
Proof.
  intros I P. assert (C : compound p) by (cbn in *; intuition subst; auto).
  assert (D : forall x, ~ In p [x] \/ True) by auto. clear D. split.
  - intros W. inversion W; subst; try congruence; try (match goal with H : parsed_value m = Ok _ |- _ => rewrite P in H; injection H as <- end); try (exfalso; cbn in *; intuition congruence).
    + left. split; [reflexivity|]. left. auto.
    + left. split; [reflexivity|]. right. left. auto.
    + left. split; [reflexivity|]. right. right. auto.
    + right. split; [assumption|]. eexists. split; [eassumption|]. split; [assumption|]. left. auto.
    + right. split; [assumption|]. eexists. split; [eassumption|]. split; [assumption|]. right. eauto.
  - intros [(-> & [(-> & O & ->)|[(-> & O & S & ->)|(-> & -> & ->)]])|(O & s & I' & X & W)].
    + eapply w_no_columns; eassumption.
    + eapply w_no_reference; eassumption.
    + eapply w_unnamed; eassumption.
    + destruct W as [(N & -> & ->)|(q & path' & Q & -> & W)]; [eapply w_unknown; eassumption|eapply w_inside; eassumption].
Qed.
Lemma wrong_unread d p own m path c : compound p -> parsed_value m = Err -> wrong d p own m path c <-> path = [] /\ c = BadModifier (m_raw m).
Proof.
  intros C P. split.
  - intros W. inversion W; subst; try congruence; auto; exfalso; cbn in C; intuition discriminate.
  - intros (-> & ->). constructor; assumption.
Qed.
Lemma foreign_fits loose d own n m : (forall m', parsed_value m = Ok m' -> loose = true \/ straight d Foreign (m_subs m')) -> fits loose (foreign_notes d [n] m) (below n (wrong d Foreign own m)).
Proof.
  intros S. unfold foreign_notes. pose proof (not_panic m) as NP. destruct (parsed_value m) as [m'| |] eqn:P; [| |contradiction].
  - pose proof (fun path c => wrong_subs d Foreign own m m' path c (or_introl eq_refl) P) as E. destruct (own_value (m_value m')) eqn:O; cbn [negb].
    + destruct (m_subs m') as [|s0 l] eqn:L; cbn [none].
      * apply fits_one. intros path c. unfold below. split.
        -- intros (path' & -> & W). apply E in W. destruct W as [(-> & [(_ & X & _)|[(_ & _ & _ & ->)|(X & _)]])|(_ & s & [] & _)]; [congruence|auto|discriminate].
        -- intros (-> & ->). exists []. split; [reflexivity|]. apply E. left. split; [reflexivity|]. right. left. auto.
      * assert (S' : loose = true \/ straight d Foreign (s0 :: l)) by (rewrite <- L; exact (S m' eq_refl)).
        eapply fits_same; [|apply (subs_fits loose d true (split_byte ","%char (m_value m')) n (s0 :: l) S')]. intros path c. unfold below. split.
        -- intros (path' & -> & s & I & W). exists path'. split; [reflexivity|]. apply E. right. split; [intros _; exact O|]. exists s. auto.
        -- intros (path' & -> & W). exists path'. split; [reflexivity|]. apply E in W. destruct W as [(_ & [(_ & X & _)|[(_ & _ & X & _)|(X & _)]])|(_ & s & I & W)]; [congruence|discriminate|discriminate|]. exists s. auto.
    + apply fits_one. intros path c. unfold below. split.
      * intros (path' & -> & W). apply E in W. destruct W as [(-> & [(_ & _ & ->)|[(_ & X & _)|(X & _)]])|(X & _)]; [auto|congruence|discriminate|specialize (X eq_refl); congruence].
      * intros (-> & ->). exists []. split; [reflexivity|]. apply E. left. auto.
  - apply fits_one. intros path c. unfold below. split.
    + intros (path' & -> & W). apply wrong_unread in W; [|cbn; auto|exact P]. destruct W as (-> & ->). auto.
    + intros (-> & ->). exists []. split; [reflexivity|]. apply wrong_unread; [cbn; auto|exact P|auto].
Qed.
Lemma references_fits loose d column n m : (forall m', parsed_value m = Ok m' -> loose = true \/ straight d References (m_subs m')) ->
  fits loose (references_notes d column [n] m) (below n (wrong d References [column] m)).
Proof.
  intros S. unfold references_notes. pose proof (not_panic m) as NP. destruct (parsed_value m) as [m'| |] eqn:P; [| |contradiction].
  - pose proof (fun path c => wrong_subs d References [column] m m' path c (or_intror (or_introl eq_refl)) P) as E.
    eapply fits_same; [|apply fits_app; [|apply (subs_fits loose d false [column] n (m_subs m') (S m' eq_refl))]]. 1: instantiate (1 := fun path c => column = [] /\ path = [n] /\ c = NoColumn).
    + intros path c. unfold both, below. split.
      * intros [(-> & -> & ->)|(path' & -> & s & I & W)].
        -- exists []. split; [reflexivity|]. apply E. left. split; [reflexivity|]. right. right. auto.
        -- exists path'. split; [reflexivity|]. apply E. right. split; [intros X; discriminate X|]. exists s. auto.
      * intros (path' & -> & W). apply E in W. destruct W as [(-> & [(X & _)|[(X & _)|(_ & X & ->)]])|(_ & s & I & W)]; try discriminate X.
        -- injection X as ->. left. auto.
        -- right. exists path'. split; [reflexivity|]. exists s. auto.
    + destruct column as [|a column]; cbn [is_empty].
      * apply fits_one. intros path c. intuition.
      * apply fits_none. intros path c (X & _). discriminate X.
  - apply fits_one. intros path c. unfold below. split.
    + intros (path' & -> & W). apply wrong_unread in W; [|cbn; auto|exact P]. destruct W as (-> & ->). auto.
    + intros (-> & ->). exists []. split; [reflexivity|]. apply wrong_unread; [cbn; auto|exact P|auto].
Qed.

(** ** Fields *)
Definition field_part (column : option bytes) : part := match column with Some _ => Column | None => Table end.
Definition step_wrong (d : dialect) (p : part) (own : list bytes) (m : modifier) (path : list bytes) (c : complaint) : Prop :=
  inside p (m_name m) = None /\ path = [] /\ c = UnknownModifier (m_name m) \/
  exists q, inside p (m_name m) = Some q /\ below (m_name m) (wrong d q own m) path c.
Lemma scope_form ds m : (if none (m_dialects m) then Mod ds (m_name m) (m_raw m) (m_value m) (m_subs m) else m) = scope ds m.
Proof. unfold scope. destruct (m_dialects m); reflexivity. Qed.
Lemma scope_name ds m : m_name (scope ds m) = m_name m.
Proof. unfold scope. destruct (m_dialects m); reflexivity. Qed.
Lemma scope_raw ds m : m_raw (scope ds m) = m_raw m.
Proof. unfold scope. destruct (m_dialects m); reflexivity. Qed.
Lemma inside_field column n : inside (field_part column) n =
  if match column with Some _ => bmem n column_words | None => beqb n (B"virtual") end then Some Word
  else if beqb n (B"dialect") then Some Dialects
  else if beqb n (B"index") then Some Index
  else if beqb n (B"primarykey") || beqb n (B"unique") then Some Key
  else if beqb n (B"foreignkey") then Some Foreign
  else if match column with Some _ => beqb n (B"references") | None => false end then Some References
  else None.
Proof.
  destruct column as [x|]; unfold inside, field_part; cbn [names_of app map].
  - destruct (bmem n column_words) eqn:W.
    + apply existsb_exists in W. destruct W as (y & I & E). apply beqb_eq in E. subst y. cbn in I. repeat (destruct I as [<-|I]; [reflexivity|]). destruct I.
    + assert (N : forall y, In y column_words -> beqb n y = false).
      { intros y I. destruct (beqb_spec n y) as [->|]; [|reflexivity]. assert (X : bmem y column_words = true) by (apply existsb_exists; exists y; split; [exact I|apply beqb_eq; reflexivity]). congruence. }
      cbn [lookup]. 
      destruct (beqb_spec n (B"references")) as [->|]; [reflexivity|]. destruct (beqb_spec n (B"index")) as [->|]; [reflexivity|]. destruct (beqb_spec n (B"primarykey")) as [->|]; [reflexivity|].
      destruct (beqb_spec n (B"unique")) as [->|]; [reflexivity|]. destruct (beqb_spec n (B"foreignkey")) as [->|]; [reflexivity|]. destruct (beqb n (B"dialect")); [reflexivity|].
      repeat (rewrite N by (cbn; auto 20)). reflexivity.
  - cbn [lookup]. destruct (beqb_spec n (B"virtual")) as [->|]; [reflexivity|]. destruct (beqb_spec n (B"index")) as [->|]; [reflexivity|]. destruct (beqb_spec n (B"primarykey")) as [->|]; [reflexivity|].
    destruct (beqb_spec n (B"unique")) as [->|]; [reflexivity|]. destruct (beqb_spec n (B"foreignkey")) as [->|]; [reflexivity|]. destruct (beqb n (B"dialect")); reflexivity.
Qed.
(** One modifier by the part that it is. *)
Definition part_step (d : dialect) (column : option bytes) (s : list bytes * list bytes) (m : modifier) : (list bytes * list bytes) * list note :=
  let here ns := (([m_name m], snd s), ns) in
  match inside (field_part column) (m_name m) with
  | Some Word => (s, [])
  | Some Dialects => if is_empty (m_raw m) then here [([m_name m], BlankDialect)] else ((fst s, split_byte ","%char (m_raw m)), [])
  | Some Index => here (index_notes d (opt_list column) [m_name m] m)
  | Some Key => here (key_notes d (opt_list column) [m_name m] m)
  | Some Foreign => here (foreign_notes d [m_name m] m)
  | Some References => match column with Some n => here (references_notes d n [m_name m] m) | None => (s, []) end
  | _ => (s, [(fst s, UnknownModifier (m_name m))])
  end.
Lemma field_step_part d column s m : field_step d column s m =
  if match column with Some _ => excluded d (scope (snd s) m) | None => false end then (s, []) else part_step d column s (scope (snd s) m).
Proof.
  destruct s as [keys ds]. unfold field_step. cbv zeta. rewrite scope_form. cbn [snd]. unfold part_step. rewrite inside_field. generalize (scope ds m). intros m1. cbn [fst snd].
  destruct column as [n|]; [destruct (excluded d m1); [reflexivity|]; destruct (bmem (m_name m1) column_words); [reflexivity|]|destruct (beqb (m_name m1) (B"virtual")); [reflexivity|]].
  all: destruct (beqb (m_name m1) (B"dialect")); [destruct (m_raw m1); reflexivity|]; destruct (beqb (m_name m1) (B"index")); [reflexivity|];
    destruct (beqb (m_name m1) (B"primarykey") || beqb (m_name m1) (B"unique")); [reflexivity|]; destruct (beqb (m_name m1) (B"foreignkey")); [reflexivity|].
  - destruct (beqb (m_name m1) (B"references")); reflexivity.
  - reflexivity.
Qed.
Lemma table_references n q : inside Table n = Some q -> q <> References.
Proof. intros E. rewrite (inside_field None) in E. intros ->. repeat match type of E with context [if ?b then _ else _] => destruct b end; discriminate E. Qed.
Lemma field_parts column n q : inside (field_part column) n = Some q -> In q [Word; Dialects; Index; Key; Foreign; References].
Proof. intros E. rewrite inside_field in E. repeat match type of E with context [if ?b then _ else _] => destruct b end; try discriminate E; injection E as <-; cbn; auto 10. Qed.
Lemma part_fits loose d column s m : (inside (field_part column) (m_name m) = None -> loose = true \/ fst s = []) ->
  (forall q m', inside (field_part column) (m_name m) = Some q -> In q [Foreign; References] -> parsed_value m = Ok m' -> loose = true \/ straight d q (m_subs m')) ->
  fits loose (snd (part_step d column s m)) (step_wrong d (field_part column) (opt_list column) m).
Proof.
  intros U S. set (p := field_part column) in *.
  assert (One : forall q ns, inside p (m_name m) = Some q -> fits loose ns (below (m_name m) (wrong d q (opt_list column) m)) -> fits loose ns (step_wrong d p (opt_list column) m)).
  { intros q ns Q. apply fits_same. intros path c. unfold step_wrong. rewrite Q. split; [eauto|]. intros [(X & _)|(q' & X & W)]; [discriminate X|]. injection X as <-. exact W. }
  unfold part_step. fold p. destruct (inside p (m_name m)) as [q|] eqn:Q.
  - pose proof (field_parts column _ _ Q) as I. cbn in I. destruct I as [<-|[<-|[<-|[<-|[<-|[<-|[]]]]]]].
    + apply (One Word _ eq_refl), fits_none. intros path c (path' & _ & W). exact (wrong_word _ _ _ _ _ W).
    + apply (One Dialects _ eq_refl). destruct (m_raw m) as [|x r] eqn:R; cbn [is_empty snd].
      * apply fits_one. intros path c. unfold below. split.
        -- intros (path' & -> & W). apply wrong_dialect in W. destruct W as (-> & -> & _). auto.
        -- intros (-> & ->). exists []. split; [reflexivity|]. apply wrong_dialect. auto.
      * apply fits_none. intros path c (path' & _ & W). apply wrong_dialect in W. destruct W as (_ & _ & X). congruence.
    + apply (One Index _ eq_refl). apply (simple_fits loose d Index). left. reflexivity.
    + apply (One Key _ eq_refl). apply (simple_fits loose d Key). right. reflexivity.
    + apply (One Foreign _ eq_refl). apply foreign_fits. intros m' P. apply (S Foreign m' eq_refl); [cbn; auto|exact P].
    + apply (One References _ eq_refl). unfold p in Q. destruct column as [n|]; [|exfalso; exact (table_references _ _ Q eq_refl)].
      apply references_fits. intros m' P. apply (S References m' eq_refl); [cbn; auto|exact P].
  - cbn [snd]. split.
    + intros k c [I|[]]. apply pair_equal_spec in I. destruct I as (<- & <-). exists []. split; [left; auto|apply U; reflexivity].
    + intros path c [(_ & -> & ->)|(q & X & _)]; [|congruence]. exists (fst s). split; [left; reflexivity|apply U; reflexivity].
Qed.
Lemma counts_dec d column m : (if match column with Some _ => excluded d m | None => false end then ~ counts d (field_part column) m else counts d (field_part column) m).
Proof. unfold counts, field_part. destruct column as [n|]; [|intros X; discriminate X]. destruct (excluded d m) eqn:X; [intros C; specialize (C eq_refl); congruence|auto]. Qed.
Lemma step_scope d column s m ds' : next_scope d (field_part column) (snd s) m ds' <-> ds' = snd (fst (field_step d column s m)).
Proof.
  rewrite field_step_part. pose proof (counts_dec d column (scope (snd s) m)) as C. destruct (match column with Some _ => _ | None => false end); cbn [fst snd].
  - split; [intros [X _ _|_]; [contradiction|reflexivity]|intros ->; constructor; auto].
  - assert (E : snd (fst (part_step d column s (scope (snd s) m))) = if beqb (m_name m) (B"dialect") && negb (is_empty (m_raw m)) then split_byte ","%char (m_raw m) else snd s).
    { unfold part_step. rewrite scope_name, scope_raw. destruct (beqb_spec (m_name m) (B"dialect")) as [E|N]; cbn [andb].
      - rewrite E. assert (inside (field_part column) (B"dialect") = Some Dialects) as -> by (destruct column; reflexivity). destruct (m_raw m); reflexivity.
      - destruct (inside (field_part column) (m_name m)) as [[]|] eqn:Q; try reflexivity; [destruct column; reflexivity|].
        exfalso. rewrite inside_field in Q. destruct (beqb_spec (m_name m) (B"dialect")); [contradiction|].
        repeat match type of Q with context [if ?b then _ else _] => destruct b end; discriminate Q. }
    rewrite E. destruct (beqb_spec (m_name m) (B"dialect")) as [D|N]; cbn [andb].
    + destruct (m_raw m) as [|x r] eqn:R; cbn [is_empty negb].
      * split; [intros [_ _ X|_]; [congruence|reflexivity]|intros ->; constructor; auto].
      * split.
        -- intros [_ _ _|[X|[X|X]]]; [rewrite R; reflexivity|contradiction|contradiction|congruence].
        -- intros ->. rewrite <- R. constructor; [exact C|exact D|congruence].
    + split; [intros [_ X _|_]; [contradiction|reflexivity]|intros ->; constructor; auto].
Qed.
Lemma step_keeps d column s m : inside (field_part column) (m_name m) = None \/ inside (field_part column) (m_name m) = Some Word \/ inside (field_part column) (m_name m) = Some Dialects /\ m_raw m <> [] ->
  fst (fst (field_step d column s m)) = fst s.
Proof.
  intros H. rewrite field_step_part. destruct (match column with Some _ => _ | None => false end); [reflexivity|]. unfold part_step. rewrite scope_name, scope_raw.
  destruct H as [-> |[-> |(-> & N)]]; try reflexivity. destruct (m_raw m); [contradiction|reflexivity].
Qed.
Lemma notes_fits loose d column ms : forall s,
  (forall x, In x ms -> inside (field_part column) (m_name x) = None -> loose = true \/ fst s = []) -> loose = true \/ orderly d (field_part column) ms ->
  fits loose (field_notes d column s ms) (fun path c => exists m, reached d (field_part column) (snd s) ms m /\ step_wrong d (field_part column) (opt_list column) m path c).
Proof.
  induction ms as [|m ms IH]; intros s U O; cbn [field_notes].
  - apply fits_none. intros path c (m & R & _). inversion R.
  - destruct (field_step d column s m) as [s' ns] eqn:F. assert (Es : s' = fst (field_step d column s m)) by (rewrite F; reflexivity).
    assert (En : ns = snd (field_step d column s m)) by (rewrite F; reflexivity).
    eapply fits_same; [|apply fits_app; [|apply (IH s')]].
    1: instantiate (1 := fun path c => counts d (field_part column) (scope (snd s) m) /\ step_wrong d (field_part column) (opt_list column) (scope (snd s) m) path c).
    + intros path c. unfold both. split.
      * intros [(C & W)|(m0 & R & W)]; [exists (scope (snd s) m); split; [constructor; exact C|exact W]|].
        exists m0. split; [|exact W]. eapply r_later; [|exact R]. apply step_scope. rewrite Es. reflexivity.
      * intros (m0 & R & W). inversion R as [ds m1 ms1 C|ds ds' m1 ms1 m2 N R']; subst; [left; auto|]. right. exists m0. split; [|exact W].
        apply step_scope in N. rewrite <- N. exact R'.
    + rewrite En, field_step_part. pose proof (counts_dec d column (scope (snd s) m)) as C. destruct (match column with Some _ => _ | None => false end); cbn [snd].
      * apply fits_none. intros path c (X & _). contradiction.
      * eapply fits_same; [|apply part_fits].
        -- intros path c. split; [auto|tauto].
        -- rewrite scope_name. intros Q. apply (U m); [left; reflexivity|exact Q].
        -- rewrite scope_name. intros q m' Q I P. destruct O as [->|(_ & O)]; [auto|]. right. eapply O; [left; reflexivity|exact Q|exact I|exact P].
    + intros x I Q. destruct O as [->|(O & _)]; [auto|]. specialize (O [] m ms x eq_refl I Q). rewrite Es, (step_keeps d column s m O). apply (U x); [right; exact I|exact Q].
    + destruct O as [O|(O1 & O2)]; [auto|]. right. split.
      * intros a m0 b x E I Q. apply (O1 (m :: a) m0 b x); [cbn; rewrite E; reflexivity|exact I|exact Q].
      * intros ds m0 m' q I. apply O2. right. exact I.
Qed.
Lemma tag_form d p own ms path c : tag_wrong d p own ms path c <-> exists m, reached d p [] ms m /\ step_wrong d p own m path c.
Proof.
  split.
  - intros [m R N|q m path' c' R Q W]; exists m; (split; [exact R|]); [left; auto|]. right. exists q. split; [exact Q|]. exists path'. auto.
  - intros (m & R & [(N & -> & ->)|(q & Q & path' & -> & W)]); [apply t_unknown; assumption|eapply t_inside; eassumption].
Qed.
