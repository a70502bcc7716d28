(** Facts about the choice of files: file names, what is located, what is performed. *)
From Coq Require Import Lia.
From Verif Require Import GoStr GoStrFacts DdlFacts ModelLoadFiles SpecLoadFiles.

Local Notation slashless := (fun e => ~ In SLASH e).

(** ** Names *)
Definition before (init : list bytes) : bytes := match init with [] => [] | _ => join [SLASH] init ++ [SLASH] end.
Lemma join_snoc init f : join [SLASH] (init ++ [f]) = before init ++ f.
Proof.
  destruct init as [|a init]; [reflexivity|]. unfold before. revert a.
  induction init as [|b init IH]; intros a.
  - cbn [app join]. rewrite <- app_assoc. reflexivity.
  - rewrite <- app_comm_cons, join_cons by discriminate. rewrite IH.
    rewrite (join_cons [SLASH] a (b :: init)) by discriminate. rewrite !app_assoc. reflexivity.
Qed.
Lemma usual_parts p : usual_name p ->
  exists init f, p = before init ++ f /\ Forall usual_element init /\ (usual_element f \/ (f = [] /\ init <> [])).
Proof.
  intros (cs & slash & Ne & U & E & [-> | ->]).
  - destruct (exists_last Ne) as (init & f & ->). exists init, f. apply Forall_app in U. destruct U as [U1 U2].
    rewrite app_nil_r in E. change (B"/") with [SLASH] in E. rewrite join_snoc in E.
    split; [exact E|]. split; [exact U1|]. left. inversion U2; assumption.
  - exists cs, []. split; [|split; [exact U|right; split; [reflexivity|exact Ne]]].
    change (B"/") with [SLASH] in E. rewrite E, app_nil_r. destruct cs; [contradiction|]. reflexivity.
Qed.
Lemma usual_slashless init : Forall usual_element init -> Forall (fun e => ~ In SLASH e) init.
Proof. intros U. eapply Forall_impl; [|exact U]. intros e (_ & _ & _ & H). exact H. Qed.

Lemma after_last_slashless s acc : ~ In SLASH s -> after_last_slash s acc = rev acc ++ s.
Proof.
  revert acc. induction s as [|x s IH]; intros acc H; cbn [after_last_slash]; [rewrite app_nil_r; reflexivity|].
  destruct (ceqb_spec x "/"%char) as [E|N]; [exfalso; apply H; left; exact E|].
  rewrite IH by (intros I; apply H; right; exact I). cbn [rev]. rewrite <- app_assoc. reflexivity.
Qed.
Lemma after_last_found a s acc : ~ In SLASH s -> after_last_slash (a ++ SLASH :: s) acc = s.
Proof.
  revert acc. induction a as [|x a IH]; intros acc H; cbn [app after_last_slash].
  - change (ceqb SLASH "/"%char) with true. cbn [rev]. rewrite after_last_slashless by exact H. reflexivity.
  - destruct (ceqb x "/"%char); apply IH; exact H.
Qed.
Lemma basename_before init f : ~ In SLASH f -> basename (before init ++ f) = f.
Proof.
  intros H. unfold basename, before. destruct init as [|a init]; [apply (after_last_slashless f []); exact H|].
  rewrite <- app_assoc. apply after_last_found. exact H.
Qed.
Lemma dir_part init f : ~ In SLASH f ->
  firstn (length (before init ++ f) - length (basename (before init ++ f))) (before init ++ f) = before init.
Proof.
  intros H. rewrite basename_before by exact H. rewrite app_length, Nat.add_sub, firstn_app, Nat.sub_diag, firstn_all.
  apply app_nil_r.
Qed.

Lemma usual_beqb e : usual_element e -> beqb e [] = false /\ beqb e DOT = false /\ beqb e DOTDOT = false.
Proof. intros (A & C & D & _). repeat rewrite beqb_neq. auto. Qed.
Lemma clean_usual rooted acc init : Forall usual_element init -> clean_elems rooted acc (init ++ [[]]) = rev acc ++ init.
Proof.
  intros U. revert acc. induction U as [|e init Ue U IH]; intros acc.
  - cbn. rewrite app_nil_r. reflexivity.
  - rewrite <- app_comm_cons. cbn [clean_elems]. destruct (usual_beqb e Ue) as (-> & -> & ->). cbn [orb].
    rewrite IH. cbn [rev]. rewrite <- app_assoc. reflexivity.
Qed.
Lemma rooted_usual init s : Forall usual_element init -> init <> [] -> has_prefix (join [SLASH] init ++ s) [SLASH] = false.
Proof.
  intros U Ne. destruct U as [|e init Ue U]; [contradiction|]. destruct Ue as (A & _ & _ & H).
  destruct e as [|c e]; [contradiction|].
  assert (C : c <> SLASH) by (intros ->; apply H; left; reflexivity).
  destruct (has_prefix _ _) eqn:E; [|reflexivity]. exfalso. apply has_prefix_iff in E. destruct E as (r & E).
  destruct init; cbn in E; injection E as E _; contradiction.
Qed.
Lemma dir_usual init f : Forall usual_element init -> ~ In SLASH f ->
  dir_name (before init ++ f) = match init with [] => DOT | _ => join [SLASH] init end.
Proof.
  intros U H. unfold dir_name. rewrite dir_part by exact H. unfold before.
  destruct init as [|e init]; [reflexivity|]. unfold clean_path.
  rewrite rooted_usual by (try exact U; discriminate).
  replace (join [SLASH] (e :: init) ++ [SLASH]) with (join [SLASH] ((e :: init) ++ [[]])).
  2:{ rewrite join_snoc. unfold before. rewrite app_nil_r. reflexivity. }
  rewrite split_byte_join; [|discriminate|].
  2:{ apply Forall_app. split; [apply usual_slashless; exact U|]. constructor; [|constructor]. intros []. }
  rewrite clean_usual by exact U. reflexivity.
Qed.

Lemma elements_before init f : Forall usual_element init -> (usual_element f \/ f = []) ->
  elements (before init ++ f) = init ++ match f with [] => [] | _ => [f] end.
Proof.
  intros U F. unfold elements. rewrite <- join_snoc.
  rewrite split_byte_join; [|destruct init; discriminate|].
  2:{ apply Forall_app. split; [apply usual_slashless; exact U|]. constructor; [|constructor].
      destruct F as [(_ & _ & _ & H)| ->]; [exact H|intros []]. }
  rewrite filter_app. f_equal.
  - clear F. induction U as [|e init Ue U IH]; [reflexivity|]. cbn [filter].
    destruct (usual_beqb e Ue) as (-> & E & _). change DOT with (B".") in E. rewrite E. cbn [negb andb].
    f_equal. exact IH.
  - cbn [filter]. destruct F as [F| ->]; [|reflexivity].
    destruct (usual_beqb f F) as (-> & E & _). change DOT with (B".") in E. rewrite E. cbn [negb andb].
    destruct f; [destruct F as [N _]; contradiction|reflexivity].
Qed.

Lemma last_app_last {A} (a b : list A) d : b <> [] -> last (a ++ b) d = last b d.
Proof.
  intros N. destruct (exists_last N) as (b' & x & ->). rewrite app_assoc, !last_last. reflexivity.
Qed.
Lemma last_in {A} (a : list A) d : a <> [] -> In (last a d) a.
Proof. intros N. destruct (exists_last N) as (a' & x & ->). rewrite last_last. apply in_or_app. right. left. reflexivity. Qed.
Lemma last_usual init f : usual_element f -> ceqb (last (before init ++ f) "x"%char) "/"%char = false.
Proof.
  intros (N & _ & _ & H). rewrite last_app_last by exact N. apply ceqb_neq. intros E. apply H.
  change SLASH with "/"%char. rewrite <- E. apply last_in. exact N.
Qed.
Lemma last_directory init : init <> [] -> ceqb (last (before init ++ []) "x"%char) "/"%char = true.
Proof. intros N. rewrite app_nil_r. unfold before. destruct init; [contradiction|]. rewrite last_last. reflexivity. Qed.

(** What the specification makes of a usual name. *)
Lemma top_usual (stem : bytes) init f : Forall usual_element init -> usual_element f ->
  top_file (Some stem) (before init ++ f) =
    match init with [] => Some f | [s] => if beqb s stem then Some f else None | _ => None end.
Proof.
  intros U F. unfold top_file. rewrite last_usual by exact F. rewrite elements_before by auto.
  destruct f as [|c f]; [destruct F as [N _]; contradiction|].
  destruct init as [|a [|b init]]; [reflexivity..|]. cbn [app]. destruct init; reflexivity.
Qed.
Lemma top_directory stem init : init <> [] -> top_file stem (before init ++ []) = None.
Proof. intros N. unfold top_file. rewrite last_directory by exact N. reflexivity. Qed.

Lemma join_one_slashless init s : Forall usual_element init -> ~ In SLASH s -> init <> [] -> join [SLASH] init = s -> init = [s].
Proof.
  intros U H N E. destruct init as [|a [|b init]]; [contradiction|cbn in E; rewrite E; reflexivity|].
  exfalso. apply H. rewrite <- E. rewrite join_cons by discriminate. apply in_or_app. right. left. reflexivity.
Qed.
Lemma has_suffix_after f init s : s <> [] -> ~ In SLASH s -> has_suffix (before init ++ f) s = has_suffix f s.
Proof.
  intros Ne H. destruct init as [|a init]; [reflexivity|].
  set (x := join [SLASH] (a :: init)).
  change (before (a :: init)) with (x ++ [SLASH]). unfold has_suffix. rewrite <- app_assoc. cbn [app].
  rewrite rev_app_distr. cbn [rev]. rewrite <- app_assoc. cbn [app].
  assert (H' : ~ In SLASH (rev s)) by (rewrite <- in_rev; exact H).
  clear -H'. set (t := rev s) in *. clearbody t. generalize (rev f) as g. intros g.
  unfold has_prefix. revert g. induction t as [|c t IH]; intros g; [destruct g; reflexivity|].
  destruct g as [|y g].
  - cbn [app strip_prefix]. destruct (ceqb_spec c SLASH) as [E|N]; [exfalso; apply H'; left; exact E|reflexivity].
  - cbn [app strip_prefix]. destruct (ceqb c y); [|reflexivity]. apply IH. intros I. apply H'. right. exact I.
Qed.

Lemma script_usual (stem f p : bytes) : ~ In SLASH stem -> usual_element f -> usual_name p ->
  is_script stem f p = match top_file (Some stem) p with Some g => beqb g f | None => false end.
Proof.
  intros Hs F U. destruct (usual_parts p U) as (init & g & -> & Ui & G).
  assert (Fs : ~ In SLASH f) by apply F.
  unfold is_script. destruct G as [G|[-> N]].
  - rewrite top_usual by assumption. assert (Gs : ~ In SLASH g) by apply G.
    assert (S : split_byte SLASH (before init ++ g) = init ++ [g]).
    { rewrite <- join_snoc. apply split_byte_join; [destruct init; discriminate|]. apply Forall_app.
      split; [apply usual_slashless; exact Ui|]. constructor; [exact Gs|constructor]. }
    assert (E1 : beqb (before init ++ g) f = match init with [] => beqb g f | _ => false end).
    { destruct init; [reflexivity|]. apply beqb_neq. intros E. apply Fs. rewrite <- E. unfold before.
      apply in_or_app. left. apply in_or_app. right. left. reflexivity. }
    assert (E2 : beqb (before init ++ g) (stem ++ SLASH :: f) = match init with [s] => beqb s stem && beqb g f | _ => false end).
    { assert (S2 : split_byte SLASH (stem ++ SLASH :: f) = [stem; f]).
      { replace (stem ++ SLASH :: f) with (join [SLASH] [stem; f]) by reflexivity.
        apply split_byte_join; [discriminate|]. constructor; [exact Hs|constructor; [exact Fs|constructor]]. }
      apply Bool.eq_true_iff_eq. rewrite beqb_eq. split.
      - intros E. rewrite E, S2 in S. destruct init as [|a [|b init]]; cbn in S; [discriminate| |].
        + injection S as -> ->. rewrite !beqb_refl. reflexivity.
        + exfalso. destruct init; discriminate.
      - destruct init as [|a [|b init]]; [discriminate| |discriminate].
        intros E. apply andb_true_iff in E. destruct E as [Ea Eg]. apply beqb_eq in Ea, Eg. subst.
        unfold before. cbn [join]. rewrite <- app_assoc. reflexivity. }
    rewrite E1, E2. destruct init as [|a [|b init]]; [apply Bool.orb_false_r| |reflexivity].
    cbn [orb]. destruct (beqb a stem); reflexivity.
  - rewrite top_directory by exact N. rewrite app_nil_r. destruct init as [|a init]; [contradiction|].
    assert (L : last (before (a :: init)) "x"%char = SLASH) by (unfold before; apply last_last).
    assert (Lf : last f "x"%char <> SLASH).
    { intros E. destruct F as (Fn & _). apply Fs. rewrite <- E. apply last_in. exact Fn. }
    apply Bool.orb_false_iff. split; apply beqb_neq; intros E; rewrite E in L.
    + apply Lf. exact L.
    + apply Lf. rewrite last_app_last in L by discriminate.
      destruct f as [|c f]; [destruct F as [Fn _]; contradiction|]. exact L.
Qed.
Lemma csv_usual (stem : bytes) e : ~ In SLASH stem -> usual_name (fst e) -> is_csv stem e = is_top_csv (Some stem) e.
Proof.
  intros Hs U. unfold is_csv, is_top_csv. destruct (usual_parts _ U) as (init & f & -> & Ui & F).
  assert (Sc : ~ In SLASH (B".csv")) by (cbn; intros H; repeat destruct H as [H|H]; try discriminate; exact H).
  rewrite has_suffix_after by (try exact Sc; discriminate).
  destruct F as [F|[-> N]].
  - rewrite top_usual by assumption. rewrite dir_usual by (try assumption; apply F).
    destruct init as [|a [|b init]].
    + rewrite beqb_refl, andb_true_r. reflexivity.
    + change (join [SLASH] [a]) with a. inversion Ui as [|? ? Ua]; subst.
      destruct (usual_beqb a Ua) as (_ & -> & _). cbn [orb]. destruct (beqb a stem); [apply andb_true_r|apply andb_false_r].
    + replace (beqb (join [SLASH] (a :: b :: init)) DOT) with false.
      2:{ symmetry. apply beqb_neq. intros E.
          assert (X : a :: b :: init = [DOT]) by (apply join_one_slashless; [exact Ui| |discriminate|exact E]; intros [H|[]]; discriminate).
          discriminate. }
      replace (beqb (join [SLASH] (a :: b :: init)) stem) with false.
      2:{ symmetry. apply beqb_neq. intros E.
          assert (X : a :: b :: init = [stem]) by (apply join_one_slashless; [exact Ui|exact Hs|discriminate|exact E]).
          discriminate. }
      apply andb_false_r.
  - rewrite top_directory by exact N. reflexivity.
Qed.
Lemma macosx_usual (stem : bytes) p : usual_name p -> stem <> B"__MACOSX" -> has_prefix p MACOSX = true -> top_file (Some stem) p = None.
Proof.
  intros U Ns P. apply has_prefix_iff in P. destruct P as (r & P).
  destruct (usual_parts p U) as (init & f & E & Ui & F). destruct F as [F|[-> N]]; [|rewrite E; apply top_directory; exact N].
  rewrite E at 1. rewrite top_usual by assumption.
  assert (S : split_byte SLASH p = init ++ [f]).
  { rewrite E, <- join_snoc. apply split_byte_join; [destruct init; discriminate|]. apply Forall_app.
    split; [apply usual_slashless; exact Ui|]. constructor; [apply F|constructor]. }
  rewrite P in S. change (MACOSX ++ r) with (B"__MACOSX" ++ SLASH :: r) in S.
  assert (S2 : split_byte SLASH (B"__MACOSX" ++ SLASH :: r) = B"__MACOSX" :: split_byte SLASH r) by reflexivity.
  rewrite S2 in S. destruct init as [|a init].
  - exfalso. cbn [app] in S. injection S as _ S. eapply split_byte_nonempty. exact S.
  - rewrite <- app_comm_cons in S. injection S as S _. destruct init; [|reflexivity].
    rewrite <- S. replace (beqb _ stem) with false; [reflexivity|]. symmetry. apply beqb_neq. intros X. apply Ns. symmetry. exact X.
Qed.

(** ** What is located *)
Definition f_is (stem f : bytes) (e : entry) : bool := is_top (Some stem) f e.
Lemma at_most_one_cons {A} (p : A -> bool) x l : at_most_one p (x :: l) ->
  at_most_one p l /\ (p x = true -> forall y, In y l -> p y = false).
Proof.
  unfold at_most_one. cbn [filter]. destruct (p x); cbn [length]; intros H; split; try lia; try discriminate.
  intros _ y I. destruct (p y) eqn:E; [|reflexivity]. exfalso.
  assert (J : In y (filter p l)) by (apply filter_In; auto). destruct (filter p l); [destruct J|cbn in H; lia].
Qed.
Lemma top_only stem f g e : is_top stem f e = true -> f <> g -> is_top stem g e = false.
Proof.
  unfold is_top. destruct (top_file stem (fst e)) as [h|]; [|discriminate]. intros E N. apply beqb_eq in E. subst h.
  apply beqb_neq. exact N.
Qed.
Lemma usual_schema : usual_element SCHEMA /\ usual_element INDEXES /\ usual_element CONSTRAINTS.
Proof.
  repeat split; try discriminate; cbn; intros H; repeat destruct H as [H|H]; try discriminate; exact H.
Qed.
Lemma script_is_top (stem f : bytes) e : ~ In SLASH stem -> usual_element f -> usual_name (fst e) ->
  is_script stem f (fst e) = is_top (Some stem) f e.
Proof. intros H F U. rewrite script_usual by assumption. reflexivity. Qed.

(** [keeps p o es o'] : [o] is found, or what is found in [es]. *)
Definition kept (p : entry -> bool) (o : option entry) (es : list entry) : option entry :=
  match o with Some e => Some e | None => find p es end.
Definition fresh (p : entry -> bool) (o : option entry) (es : list entry) : Prop :=
  match o with Some _ => forall e, In e es -> p e = false | None => True end.
Lemma kept_step p o e es o' : at_most_one p (e :: es) -> fresh p o (e :: es) ->
  o' = (if p e then Some e else o) -> fresh p o' es /\ kept p o' es = kept p o (e :: es).
Proof.
  intros A F ->. destruct (at_most_one_cons p e es A) as [_ A']. destruct o as [x|]; cbn [fresh kept find] in *.
  - rewrite (F e (or_introl eq_refl)). cbn [fresh]. split; [|reflexivity]. intros y I. apply F. right. exact I.
  - destruct (p e); cbn [fresh]; [|split; [exact I|reflexivity]]. split; [apply A'; reflexivity|reflexivity].
Qed.
Lemma kept_skip p o e es : p e = false -> fresh p o (e :: es) -> fresh p o es /\ kept p o es = kept p o (e :: es).
Proof.
  intros E F. destruct o as [x|]; cbn [fresh kept find] in *; [|rewrite E; split; [exact I|reflexivity]].
  split; [|reflexivity]. intros y I. apply F. right. exact I.
Qed.
Lemma names_apart : SCHEMA <> INDEXES /\ SCHEMA <> CONSTRAINTS /\ INDEXES <> CONSTRAINTS.
Proof. repeat split; discriminate. Qed.
Lemma locate_fields (stem : bytes) e l : ~ In SLASH stem -> usual_name (fst e) ->
  let q f := is_top (Some stem) f in
  l_schema (locate stem e l) = (if q SCHEMA e then Some e else l_schema l) /\
  l_indexes (locate stem e l) = (if q INDEXES e then Some e else l_indexes l) /\
  l_constraints (locate stem e l) = (if q CONSTRAINTS e then Some e else l_constraints l).
Proof.
  intros H U q. unfold locate. destruct usual_schema as (S1 & S2 & S3). destruct names_apart as (N1 & N2 & N3).
  rewrite !script_is_top by assumption. fold (q SCHEMA e) (q INDEXES e) (q CONSTRAINTS e).
  destruct (q SCHEMA e) eqn:E1.
  { unfold q in *. rewrite (top_only _ _ INDEXES e E1 N1), (top_only _ _ CONSTRAINTS e E1 N2). auto. }
  destruct (q INDEXES e) eqn:E2.
  { unfold q in *. rewrite (top_only _ _ CONSTRAINTS e E2 N3). auto. }
  destruct (q CONSTRAINTS e); auto.
Qed.
Lemma locate_zip_found (stem : bytes) (es : list entry) l : ~ In SLASH stem -> stem <> B"__MACOSX" ->
  Forall (fun e : entry => usual_name (fst e)) es ->
  let q f := is_top (Some stem) f in
  at_most_one (q SCHEMA) es -> at_most_one (q INDEXES) es -> at_most_one (q CONSTRAINTS) es ->
  fresh (q SCHEMA) (l_schema l) es -> fresh (q INDEXES) (l_indexes l) es -> fresh (q CONSTRAINTS) (l_constraints l) es ->
  let r := locate_zip stem es l in
  l_schema r = kept (q SCHEMA) (l_schema l) es /\ l_indexes r = kept (q INDEXES) (l_indexes l) es /\
  l_constraints r = kept (q CONSTRAINTS) (l_constraints l) es.
Proof.
  intros H Hm U q. revert l. induction U as [|e es Ue U IH]; intros l A1 A2 A3 F1 F2 F3 r.
  - unfold r. cbn [locate_zip]. unfold kept. cbn [find]. destruct (l_schema l), (l_indexes l), (l_constraints l); auto.
  - unfold r. cbn [locate_zip]. clear r.
    destruct (at_most_one_cons _ _ _ A1) as [A1' _]. destruct (at_most_one_cons _ _ _ A2) as [A2' _].
    destruct (at_most_one_cons _ _ _ A3) as [A3' _].
    destruct (has_prefix (fst e) MACOSX) eqn:M.
    + assert (Z : forall f, q f e = false) by (intros f; change (is_top (Some stem) f e = false); unfold is_top; rewrite (macosx_usual stem (fst e) Ue Hm M); reflexivity).
      destruct (kept_skip (q SCHEMA) (l_schema l) e es (Z _) F1) as [F1' <-].
      destruct (kept_skip (q INDEXES) (l_indexes l) e es (Z _) F2) as [F2' <-].
      destruct (kept_skip (q CONSTRAINTS) (l_constraints l) e es (Z _) F3) as [F3' <-].
      apply IH; assumption.
    + destruct (locate_fields stem e l H Ue) as (L1 & L2 & L3).
      destruct (kept_step (q SCHEMA) _ e es _ A1 F1 L1) as [F1' <-].
      destruct (kept_step (q INDEXES) _ e es _ A2 F2 L2) as [F2' <-].
      destruct (kept_step (q CONSTRAINTS) _ e es _ A3 F3 L3) as [F3' <-].
      cbv zeta. destruct (all_located (locate stem e l)) eqn:D; [|apply IH; assumption].
      unfold all_located in D. destruct (locate stem e l) as [[x|] [y|] [z|]]; try discriminate. cbn. auto.
Qed.

(** The same for the buffers. *)
Definition body (p : entry -> bool) (es : list entry) : bytes := match find p es with Some e => snd e | None => [] end.
Definition free (p : entry -> bool) (b : bytes) (es : list entry) : Prop := b = [] \/ forall e, In e es -> p e = false.
Lemma find_none_all {A} (p : A -> bool) l : (forall e, In e l -> p e = false) -> find p l = None.
Proof.
  induction l as [|x l IH]; intros H; [reflexivity|]. cbn [find]. rewrite (H x (or_introl eq_refl)).
  apply IH. intros e I. apply H. right. exact I.
Qed.
Lemma body_step p b e es b' : at_most_one p (e :: es) -> free p b (e :: es) ->
  b' = (if p e then b ++ snd e else b) -> free p b' es /\ b' ++ body p es = b ++ body p (e :: es).
Proof.
  intros A F ->. destruct (at_most_one_cons p e es A) as [_ A']. unfold body. cbn [find]. destruct (p e) eqn:E.
  - specialize (A' eq_refl). split; [right; exact A'|]. rewrite find_none_all by exact A'. rewrite app_nil_r. reflexivity.
  - split; [|reflexivity]. destruct F as [F|F]; [left; exact F|right]. intros y I. apply F. right. exact I.
Qed.
Lemma buffer_fields (stem : bytes) e b : ~ In SLASH stem -> usual_name (fst e) ->
  let q f := is_top (Some stem) f in
  b_schema (buffer stem e b) = (if q SCHEMA e then b_schema b ++ snd e else b_schema b) /\
  b_indexes (buffer stem e b) = (if q INDEXES e then b_indexes b ++ snd e else b_indexes b) /\
  b_constraints (buffer stem e b) = (if q CONSTRAINTS e then b_constraints b ++ snd e else b_constraints b).
Proof.
  intros H U q. unfold buffer. destruct usual_schema as (S1 & S2 & S3). destruct names_apart as (N1 & N2 & N3).
  rewrite !script_is_top by assumption. fold (q SCHEMA e) (q INDEXES e) (q CONSTRAINTS e).
  destruct (q SCHEMA e) eqn:E1.
  { unfold q in *. rewrite (top_only _ _ INDEXES e E1 N1), (top_only _ _ CONSTRAINTS e E1 N2). auto. }
  destruct (q INDEXES e) eqn:E2.
  { unfold q in *. rewrite (top_only _ _ CONSTRAINTS e E2 N3). auto. }
  destruct (q CONSTRAINTS e); auto.
Qed.
Lemma free_done p c b es : free p (c :: b) es -> body p es = [].
Proof. intros [F|F]; [discriminate|]. unfold body. rewrite find_none_all by exact F. reflexivity. Qed.
Lemma buffer_tgz_found (stem : bytes) (es : list entry) b : ~ In SLASH stem ->
  Forall (fun e : entry => usual_name (fst e)) es ->
  let q f := is_top (Some stem) f in
  at_most_one (q SCHEMA) es -> at_most_one (q INDEXES) es -> at_most_one (q CONSTRAINTS) es ->
  free (q SCHEMA) (b_schema b) es -> free (q INDEXES) (b_indexes b) es -> free (q CONSTRAINTS) (b_constraints b) es ->
  let r := buffer_tgz stem es b in
  b_schema r = b_schema b ++ body (q SCHEMA) es /\ b_indexes r = b_indexes b ++ body (q INDEXES) es /\
  b_constraints r = b_constraints b ++ body (q CONSTRAINTS) es.
Proof.
  intros H U q. revert b. induction U as [|e es Ue U IH]; intros b A1 A2 A3 F1 F2 F3 r.
  - unfold r. cbn [buffer_tgz]. unfold body. cbn [find]. rewrite !app_nil_r. auto.
  - unfold r. cbn [buffer_tgz]. clear r.
    destruct (at_most_one_cons _ _ _ A1) as [A1' _]. destruct (at_most_one_cons _ _ _ A2) as [A2' _].
    destruct (at_most_one_cons _ _ _ A3) as [A3' _].
    destruct (buffer_fields stem e b H Ue) as (L1 & L2 & L3).
    destruct (body_step (q SCHEMA) _ e es _ A1 F1 L1) as [F1' <-].
    destruct (body_step (q INDEXES) _ e es _ A2 F2 L2) as [F2' <-].
    destruct (body_step (q CONSTRAINTS) _ e es _ A3 F3 L3) as [F3' <-].
    cbv zeta. destruct (all_buffered (buffer stem e b)) eqn:D; [|apply IH; assumption].
    unfold all_buffered in D. destruct (buffer stem e b) as [[|x bx] [|y by_] [|z bz]]; try discriminate. cbn [b_schema b_indexes b_constraints] in *.
    rewrite (free_done _ _ _ _ F1'), (free_done _ _ _ _ F2'), (free_done _ _ _ _ F3'), !app_nil_r. auto.
Qed.

(** ** What is performed *)
Section Perform.
Context (works : list action -> action -> bool).
Definition do_all (l : list action) (w : doing) : doing := fold_left (fun w a => perform works a w) l w.
Lemma do_all_app a b w : do_all (a ++ b) w = do_all b (do_all a w).
Proof. apply fold_left_app. Qed.
Lemma do_all_stopped l w : snd w = false -> do_all l w = w.
Proof.
  intros S. induction l as [|a l IH]; [reflexivity|]. unfold do_all in *. cbn [fold_left].
  replace (perform works a w) with w; [exact IH|]. unfold perform. rewrite S. reflexivity.
Qed.
(** What is done is the beginning, and all of it unless something failed. *)
Lemma do_all_prefix l w : exists rest, fst (do_all l w) ++ rest = fst w ++ l /\
  (snd (do_all l w) = true -> rest = []) /\ (snd (do_all l w) = false -> snd w = false \/
     exists b a c, l = b ++ a :: c /\ fst (do_all l w) = fst w ++ b ++ [a] /\ works (fst w ++ b) a = false).
Proof.
  revert w. induction l as [|a l IH]; intros [t ok].
  - exists []. cbn. split; [reflexivity|]. split; [reflexivity|]. auto.
  - destruct ok.
    + change (do_all (a :: l) (t, true)) with (do_all l (t ++ [a], works t a)).
      destruct (works t a) eqn:W.
      * destruct (IH (t ++ [a], true)) as (rest & E & D & X). exists rest. cbn [fst] in *.
        split; [rewrite E, <- app_assoc; reflexivity|]. split; [exact D|].
        intros F. destruct (X F) as [Y|(b & a' & c & -> & E' & W')]; [discriminate|]. right.
        exists (a :: b), a', c. rewrite E', <- !app_assoc in *. cbn [app] in *. auto.
      * rewrite do_all_stopped by reflexivity. exists l. cbn [fst snd]. split; [rewrite <- app_assoc; reflexivity|].
        split; [discriminate|]. intros _. right. exists [], a, l. rewrite app_nil_r. auto.
    + rewrite do_all_stopped by reflexivity. exists (a :: l). cbn [fst snd]. split; [reflexivity|]. split; [discriminate|]. auto.
Qed.
Lemma do_all_works l w : (forall t a, works t a = true) -> snd w = true -> do_all l w = (fst w ++ l, true).
Proof.
  intros W. revert w. induction l as [|a l IH]; intros [t ok] S; cbn in S; subst ok.
  - cbn. rewrite app_nil_r. reflexivity.
  - change (do_all (a :: l) (t, true)) with (do_all l (t ++ [a], works t a)). rewrite W, IH by reflexivity.
    cbn [fst]. rewrite <- app_assoc. reflexivity.
Qed.
Lemma load_sql_does c w : load_sql works c w = do_all (match c with [] => [] | a :: l => [RunScript (a :: l)] end) w.
Proof. destruct c; reflexivity. Qed.
Lemma load_each_does es w : load_each works es w = do_all (map (fun e => LoadCsv (fst e) (snd e)) es) w.
Proof. unfold load_each, do_all. revert w. induction es as [|e es IH]; intros w; [reflexivity|]. apply IH. Qed.
Lemma load_csvs_does sqlite stem es w :
  load_csvs sqlite works (filter (is_top_csv stem) es) w = do_all (csvs (negb sqlite) stem es) w.
Proof.
  unfold load_csvs, csvs. destruct sqlite; cbn [negb]; [apply load_each_does|].
  destruct (filter (is_top_csv stem) es); reflexivity.
Qed.
(** A script that is there at most once. *)
Lemma script_find stem f es : at_most_one (is_top stem f) es ->
  script stem f es = match body (is_top stem f) es with [] => [] | c => [RunScript c] end.
Proof.
  unfold script, body. induction es as [|e es IH]; intros A; [reflexivity|].
  destruct (at_most_one_cons _ _ _ A) as [A1 A2]. cbn [flat_map find]. destruct (is_top stem f e) eqn:E.
  - specialize (A2 eq_refl).
    replace (flat_map _ es) with (@nil action); [destruct (snd e); reflexivity|].
    symmetry. clear -A2. induction es as [|x es IH]; [reflexivity|]. cbn [flat_map].
    rewrite (A2 x (or_introl eq_refl)), IH by (intros y I; apply A2; right; exact I). destruct (snd x); reflexivity.
  - rewrite IH by exact A1. destruct (snd e); reflexivity.
Qed.
Lemma load_if_does stem f es w : at_most_one (is_top stem f) es ->
  load_if works (find (is_top stem f) es) w = do_all (script stem f es) w.
Proof.
  intros A. rewrite script_find by exact A. unfold load_if, body. destruct (find _ es) as [e|]; [apply load_sql_does|reflexivity].
Qed.
Lemma load_body_does stem f es w : at_most_one (is_top stem f) es ->
  load_sql works (body (is_top stem f) es) w = do_all (script stem f es) w.
Proof. intros A. rewrite script_find by exact A. apply load_sql_does. Qed.

Context (sqlite : bool).
Lemma zip_does name (stem : bytes) (es : list entry) w : zip_stem name = stem -> ~ In SLASH stem -> stem <> B"__MACOSX" ->
  Forall (fun e : entry => usual_name (fst e)) es -> unambiguous (Some stem) es ->
  load_zip sqlite works name es w = do_all (documented (negb sqlite) (Some stem) es) w.
Proof.
  intros E H M U Un. unfold load_zip. rewrite E.
  assert (A1 : at_most_one (is_top (Some stem) SCHEMA) es) by (apply Un; left; reflexivity).
  assert (A2 : at_most_one (is_top (Some stem) INDEXES) es) by (apply Un; right; left; reflexivity).
  assert (A3 : at_most_one (is_top (Some stem) CONSTRAINTS) es) by (apply Un; right; right; left; reflexivity).
  destruct (locate_zip_found stem es (Located None None None) H M U A1 A2 A3 I I I) as (L1 & L2 & L3).
  cbv zeta. rewrite L1, L2, L3. cbn [kept l_schema l_indexes l_constraints].
  replace (filter (fun e => negb (has_prefix (fst e) MACOSX) && is_csv stem e) es) with (filter (is_top_csv (Some stem)) es).
  2:{ clear -U H M. induction U as [|e es Ue U IH]; [reflexivity|]. cbn [filter]. rewrite IH, <- csv_usual by assumption.
      destruct (has_prefix (fst e) MACOSX) eqn:P; [|reflexivity]. cbn [negb andb].
      rewrite csv_usual by assumption. unfold is_top_csv. rewrite macosx_usual by assumption. reflexivity. }
  unfold documented. rewrite !do_all_app. rewrite <- !load_if_does by assumption.
  rewrite <- load_csvs_does. reflexivity.
Qed.
Lemma tgz_does name (stem : bytes) (es : list entry) w : tgz_stem name = stem -> ~ In SLASH stem ->
  Forall (fun e : entry => usual_name (fst e)) es -> unambiguous (Some stem) es ->
  load_tgz works name es w = do_all (documented false (Some stem) es) w.
Proof.
  intros E H U Un. unfold load_tgz. rewrite E.
  assert (A1 : at_most_one (is_top (Some stem) SCHEMA) es) by (apply Un; left; reflexivity).
  assert (A2 : at_most_one (is_top (Some stem) INDEXES) es) by (apply Un; right; left; reflexivity).
  assert (A3 : at_most_one (is_top (Some stem) CONSTRAINTS) es) by (apply Un; right; right; left; reflexivity).
  destruct (buffer_tgz_found stem es (Buffers [] [] []) H U A1 A2 A3 (or_introl eq_refl) (or_introl eq_refl) (or_introl eq_refl)) as (L1 & L2 & L3).
  cbv zeta. rewrite L1, L2, L3. cbn [app b_schema b_indexes b_constraints].
  replace (filter (is_csv stem) es) with (filter (is_top_csv (Some stem)) es).
  2:{ clear -U H. induction U as [|e es Ue U IH]; [reflexivity|]. cbn [filter]. rewrite IH, <- csv_usual by assumption. reflexivity. }
  unfold documented. rewrite !do_all_app. rewrite <- !load_body_does by assumption.
  unfold csvs. rewrite <- load_each_does. reflexivity.
Qed.
End Perform.

(** ** The name of an archive *)
Lemma base_split s : exists dir, s = dir ++ basename s /\ (dir = [] \/ last dir "x"%char = SLASH) /\ ~ In SLASH (basename s).
Proof.
  unfold basename.
  assert (H : forall s acc, ~ In SLASH acc -> exists dir, rev acc ++ s = dir ++ after_last_slash s acc /\
             (dir = [] \/ last dir "x"%char = SLASH) /\ ~ In SLASH (after_last_slash s acc)).
  { clear s. induction s as [|x s IH]; intros acc H.
    - exists []. cbn. rewrite app_nil_r. rewrite <- in_rev. auto.
    - cbn [after_last_slash]. destruct (ceqb_spec x "/"%char) as [E|N].
      + destruct (IH [] (fun h => h)) as (dir & E' & D & I). cbn [rev app] in E'.
        exists (rev acc ++ x :: dir). rewrite E' at 1. rewrite <- app_assoc. split; [reflexivity|]. split; [|exact I].
        right. rewrite last_app_last by discriminate. destruct D as [-> | D]; [exact E|].
        destruct dir as [|y dir]; [exact E|]. exact D.
      + destruct (IH (x :: acc)) as (dir & E' & D & I).
        { intros [J|J]; [apply N; exact J|apply H; exact J]. }
        exists dir. cbn [rev] in E'. rewrite <- app_assoc in E'. auto. }
  destruct (H s [] (fun h => h)) as (dir & E & D & I). exists dir. auto.
Qed.
Lemma basename_stem dir stem : ~ In SLASH stem -> (dir = [] \/ last dir "x"%char = SLASH) -> basename (dir ++ stem) = stem.
Proof.
  intros H D. unfold basename. destruct D as [-> | D]; [apply (after_last_slashless stem []); exact H|].
  destruct dir as [|c dir]; [apply (after_last_slashless stem []); exact H|].
  destruct (@exists_last _ (c :: dir)) as (d' & x & E); [discriminate|]. rewrite E in *. rewrite last_last in D. subst x.
  rewrite <- app_assoc. apply after_last_found. exact H.
Qed.
Lemma stem_exists arg suffix : has_suffix arg suffix = true -> ~ In SLASH suffix -> exists stem, stem_is arg suffix stem.
Proof.
  intros S H. apply has_suffix_iff in S. destruct S as (r & ->). destruct (base_split r) as (dir & E & D & I).
  exists (basename r), dir. split; [rewrite E at 1; rewrite <- app_assoc; reflexivity|]. split; [exact D|exact I].
Qed.
Lemma no_dot_slash s : ~ In SLASH s -> trim_prefix s (B"./") = s.
Proof.
  intros H. unfold trim_prefix. destruct (strip_prefix (B"./") s) eqn:E; [|reflexivity].
  apply strip_prefix_Some in E. exfalso. apply H. rewrite E. right. left. reflexivity.
Qed.
Lemma stem_suffix arg suffix stem : stem_is arg suffix stem -> has_suffix arg suffix = true.
Proof. intros (dir & -> & _ & _). rewrite app_assoc. apply has_suffix_app. Qed.
Lemma zip_stem_is arg stem : stem_is arg (B".zip") stem -> zip_stem arg = stem /\ ~ In SLASH stem.
Proof.
  intros (dir & -> & D & I). split; [|exact I]. unfold zip_stem.
  assert (J : ~ In SLASH (stem ++ B".zip")).
  { intros H. apply in_app_or in H. destruct H as [H|H]; [exact (I H)|]. cbn in H. repeat destruct H as [H|H]; discriminate || exact H. }
  rewrite basename_stem by assumption. rewrite no_dot_slash by exact J. apply trim_suffix_app.
Qed.
Lemma tgz_stem_is arg stem : stem_is arg (B".tgz") stem \/ stem_is arg (B".tar.gz") stem -> tgz_stem arg = stem /\ ~ In SLASH stem.
Proof.
  intros [T|T]; pose proof (stem_suffix _ _ _ T) as Sf; destruct T as (dir & -> & D & I); (split; [|exact I]); unfold tgz_stem.
  - assert (J : ~ In SLASH (stem ++ B".tgz")).
    { intros H. apply in_app_or in H. destruct H as [H|H]; [exact (I H)|]. cbn in H. repeat destruct H as [H|H]; discriminate || exact H. }
    rewrite basename_stem by assumption. rewrite no_dot_slash by exact J.
    replace (has_suffix (dir ++ stem ++ B".tgz") (B".tar.gz")) with false; [apply trim_suffix_app|].
    rewrite app_assoc. unfold has_suffix. rewrite rev_app_distr. reflexivity.
  - assert (J : ~ In SLASH (stem ++ B".tar.gz")).
    { intros H. apply in_app_or in H. destruct H as [H|H]; [exact (I H)|]. cbn in H. repeat destruct H as [H|H]; discriminate || exact H. }
    rewrite basename_stem by assumption. rewrite no_dot_slash by exact J. rewrite Sf. apply trim_suffix_app.
Qed.

(** ** Directories *)
Lemma top_plain f : usual_element f -> top_file None f = Some f.
Proof.
  intros F. unfold top_file. rewrite <- (app_nil_l f) at 1. change (@nil ascii) with (before []).
  rewrite last_usual by exact F. rewrite <- (app_nil_l f) at 1. change (@nil ascii) with (before []) at 1.
  rewrite elements_before by auto. destruct f; [destruct F as [N _]; contradiction|reflexivity].
Qed.
Lemma is_top_plain f (e : entry) : usual_element (fst e) -> is_top None f e = beqb (fst e) f.
Proof. intros U. unfold is_top. rewrite top_plain by exact U. reflexivity. Qed.
Lemma files_usual l : Forall (fun x => usual_element (fst x)) l -> Forall (fun e : entry => usual_element (fst e)) (files_of l).
Proof.
  intros U. induction U as [|[f i] l Ux U IH]; [constructor|]. unfold files_of. cbn [flat_map snd fst].
  destruct i; [constructor; [exact Ux|exact IH]|exact IH].
Qed.
Lemma files_in f c l : In (f, c) (files_of l) -> In (f, AFile c) l.
Proof.
  unfold files_of. intros I. apply in_flat_map in I. destruct I as ([g i] & J & K). cbn [snd fst] in K.
  destruct i; [|destruct K]. destruct K as [K|[]]. injection K as -> ->. exact J.
Qed.
Lemma files_csv l : Forall (fun x => usual_element (fst x)) l -> csv_files l = filter (is_top_csv None) (files_of l).
Proof.
  intros U. induction U as [|[f i] l Ux U IH]; [reflexivity|]. unfold csv_files, files_of. cbn [flat_map snd fst].
  destruct i as [c|]; [|exact IH]. cbn [app filter]. unfold is_top_csv at 1. cbn [fst] in *. rewrite top_plain by exact Ux.
  unfold csv_files in IH. unfold files_of in IH. destruct (has_suffix f (B".csv")); cbn [app]; rewrite IH; reflexivity.
Qed.
Lemma not_in_files f l : ~ In f (map fst l) -> Forall (fun x => usual_element (fst x)) l ->
  forall e, In e (files_of l) -> is_top None f e = false.
Proof.
  intros N U [g c] I. pose proof (files_usual l U) as V. rewrite Forall_forall in V. specialize (V _ I). cbn [fst] in V.
  rewrite is_top_plain by exact V. apply beqb_neq. cbn [fst]. intros ->. apply N. apply in_map_iff.
  exists (f, AFile c). split; [reflexivity|]. apply files_in. exact I.
Qed.
Lemma files_once f l : NoDup (map fst l) -> Forall (fun x => usual_element (fst x)) l -> at_most_one (is_top None f) (files_of l).
Proof.
  intros D U. induction U as [|[g i] l Ux U IH]; [unfold at_most_one; cbn; lia|]. cbn [map fst] in D. inversion D as [|? ? N D']; subst.
  unfold files_of. cbn [flat_map snd fst]. fold (files_of l). destruct i as [c|]; [|apply IH; exact D']. unfold at_most_one. cbn [app filter].
  rewrite is_top_plain by exact Ux. cbn [fst] in *. destruct (beqb_spec g f) as [->|Nf]; [|apply IH; exact D'].
  replace (filter (is_top None f) (files_of l)) with (@nil entry); [cbn; lia|]. symmetry.
  pose proof (not_in_files f l N U) as Z. clear -Z. induction (files_of l) as [|e es IH]; [reflexivity|]. cbn [filter].
  rewrite (Z e (or_introl eq_refl)). apply IH. intros x I. apply Z. right. exact I.
Qed.
Lemma look_up_files f l : NoDup (map fst l) -> Forall (fun x => usual_element (fst x)) l ->
  match look_up f l with
  | None => body (is_top None f) (files_of l) = []
  | Some (AFile c) => body (is_top None f) (files_of l) = c
  | Some ADirectory => In (f, ADirectory) l
  end.
Proof.
  intros D U. unfold look_up. induction U as [|[g i] l Ux U IH]; [reflexivity|].
  cbn [map fst] in D. inversion D as [|? ? N D']; subst. cbn [find fst]. destruct (beqb_spec g f) as [->|Nf].
  - cbn [snd]. destruct i as [c|]; [|left; reflexivity]. unfold body, files_of. cbn [flat_map snd fst app find].
    rewrite is_top_plain by exact Ux. cbn [fst]. rewrite beqb_refl. reflexivity.
  - specialize (IH D'). destruct (find _ l) as [[h j]|]; cbn [snd] in *.
    + destruct j as [c|].
      * rewrite <- IH. unfold body, files_of. cbn [flat_map snd fst app]. destruct i as [c'|]; [|reflexivity].
        cbn [app find]. rewrite is_top_plain by exact Ux. cbn [fst]. apply beqb_neq in Nf. rewrite Nf. reflexivity.
      * right. exact IH.
    + rewrite <- IH. unfold body, files_of. cbn [flat_map snd fst app]. destruct i as [c'|]; [|reflexivity].
      cbn [app find]. rewrite is_top_plain by exact Ux. cbn [fst]. apply beqb_neq in Nf. rewrite Nf. reflexivity.
Qed.

Section Arguments.
Context (works : list action -> action -> bool) (sqlite : bool).
(** [l] is done, or part of it and then something fails that is no action. *)
Definition follows (l : list action) (w w' : doing) : Prop :=
  w' = do_all works l w \/ exists a b, l = a ++ b /\ w' = (fst (do_all works a w), false).
Lemma file_follows f l w : NoDup (map fst l) -> Forall (fun x => usual_element (fst x)) l ->
  (~ In (f, ADirectory) l -> load_file works f l w = do_all works (script None f (files_of l)) w) /\
  follows (script None f (files_of l)) w (load_file works f l w).
Proof.
  intros D U. pose proof (look_up_files f l D U) as L. unfold load_file, follows.
  rewrite script_find by (apply files_once; assumption). destruct (look_up f l) as [[c|]|].
  - rewrite L, load_sql_does. auto.
  - split; [intros N; contradiction|]. right. exists [], (match body (is_top None f) (files_of l) with [] => [] | c => [RunScript c] end).
    split; reflexivity.
  - rewrite L. cbn. auto.
Qed.
Lemma follows_then l1 l2 w w1 w2 : follows l1 w w1 -> (if snd w1 then follows l2 w1 w2 else w2 = w1) -> follows (l1 ++ l2) w w2.
Proof.
  intros [-> | (a & b & -> & ->)] F.
  - destruct (snd (do_all works l1 w)) eqn:Sn.
    + destruct F as [-> | (a & b & -> & ->)]; [left; symmetry; apply do_all_app|]. right. exists (l1 ++ a), b.
      rewrite app_assoc, do_all_app. auto.
    + subst w2. left. rewrite do_all_app. symmetry. apply do_all_stopped. exact Sn.
  - cbn [snd] in F. subst w2. right. exists a, (b ++ l2). rewrite app_assoc. auto.
Qed.
Lemma dir_follows l w : NoDup (map fst l) -> Forall (fun x => usual_element (fst x)) l ->
  follows (documented (negb sqlite) None (files_of l)) w (load_dir sqlite works l w).
Proof.
  intros D U. unfold documented, load_dir. cbv zeta.
  change (B"schema.sql") with SCHEMA. change (B"indexes.sql") with INDEXES. change (B"constraints.sql") with CONSTRAINTS.
  set (w1 := load_file works SCHEMA l w). set (w2 := if snd w1 then load_csvs sqlite works (csv_files l) w1 else w1).
  set (w3 := if snd w2 then load_file works INDEXES l w2 else w2).
  apply (follows_then _ _ w w1); [apply file_follows; assumption|].
  assert (F4 : forall w', follows (script None CONSTRAINTS (files_of l)) w' (load_file works CONSTRAINTS l w')) by (intros; apply file_follows; assumption).
  assert (F3 : forall w', follows (script None INDEXES (files_of l)) w' (load_file works INDEXES l w')) by (intros; apply file_follows; assumption).
  destruct (snd w1) eqn:S1; [|unfold w3, w2; rewrite ?S1; reflexivity].
  apply (follows_then _ _ w1 w2).
  { left. unfold w2. rewrite files_csv by exact U. apply load_csvs_does. }
  destruct (snd w2) eqn:S2; [|unfold w3; rewrite ?S2; reflexivity].
  apply (follows_then _ _ w2 w3); [unfold w3; apply F3|].
  destruct (snd w3) eqn:S3; [apply F4|reflexivity].
Qed.
Lemma dir_does l (w : doing) : NoDup (map fst l) -> Forall (fun x => usual_element (fst x)) l ->
  (forall f, In f [SCHEMA; INDEXES; CONSTRAINTS] -> ~ In (f, ADirectory) l) -> snd w = true ->
  load_dir sqlite works l w = do_all works (documented (negb sqlite) None (files_of l)) w.
Proof.
  intros D U Nd Sw. unfold documented, load_dir. cbv zeta.
  change (B"schema.sql") with SCHEMA. change (B"indexes.sql") with INDEXES. change (B"constraints.sql") with CONSTRAINTS.
  rewrite !do_all_app.
  assert (N1 : ~ In (SCHEMA, ADirectory) l) by (apply Nd; left; reflexivity).
  assert (N2 : ~ In (INDEXES, ADirectory) l) by (apply Nd; right; left; reflexivity).
  assert (N3 : ~ In (CONSTRAINTS, ADirectory) l) by (apply Nd; right; right; left; reflexivity).
  rewrite <- (proj1 (file_follows SCHEMA l w D U) N1). set (w1 := load_file works SCHEMA l w).
  assert (C : forall w' : doing, (if snd w' then load_csvs sqlite works (csv_files l) w' else w') = do_all works (csvs (negb sqlite) None (files_of l)) w').
  { intros w'. destruct (snd w') eqn:E; [rewrite files_csv by exact U; apply load_csvs_does|].
    symmetry. apply do_all_stopped. exact E. }
  rewrite C. clear C. set (w2 := do_all works (csvs (negb sqlite) None (files_of l)) w1).
  assert (X : forall f (w' : doing), ~ In (f, ADirectory) l -> (if snd w' then load_file works f l w' else w') = do_all works (script None f (files_of l)) w').
  { intros f w' N. destruct (snd w') eqn:E; [apply (proj1 (file_follows f l w' D U) N)|]. symmetry. apply do_all_stopped. exact E. }
  rewrite !X by assumption. reflexivity.
Qed.

(** ** Arguments *)
Lemma suffix_apart arg s t : has_suffix arg s = true -> has_suffix s t = false -> has_suffix t s = false -> has_suffix arg t = false.
Proof.
  intros A. unfold has_suffix in *. apply has_prefix_iff in A. destruct A as (r & A). rewrite A. clear A arg.
  generalize (rev s) as p, (rev t) as q. clear s t. unfold has_prefix.
  induction p as [|x p IH]; intros q H1 H2.
  - destruct q; discriminate.
  - destruct q as [|y q]; [cbn in H1; discriminate|]. cbn [app strip_prefix] in *.
    destruct (ceqb_spec y x) as [E|N]; [|reflexivity]. subst y. rewrite ceqb_refl in H2. exact (IH q H1 H2).
Qed.
Lemma arg_does arg n w : well_formed arg n -> usual_node arg n -> proper arg n -> snd w = true ->
  exists l, stands_for sqlite arg n l /\ load_arg sqlite works arg (Some n) w = do_all works l w.
Proof.
  intros Wf Us Pr Sw. unfold load_arg. destruct n as [c|es|es|l|]; cbn [well_formed usual_node] in Wf, Us.
  - destruct (has_suffix arg (B".sql")) eqn:E1.
    + eexists. split; [apply ForScript; exact E1|]. rewrite load_sql_does. destruct c; reflexivity.
    + destruct Us as [Us|Us]; [discriminate|]. rewrite Us. eexists. split; [apply ForCsv; exact Us|]. reflexivity.
  - destruct Us as (Z & M & U).
    rewrite (suffix_apart arg _ (B".sql") Z), (suffix_apart arg _ (B".csv") Z), Z by reflexivity.
    destruct (stem_exists arg (B".zip") Z) as (stem & T).
    { intros H. cbn in H. repeat destruct H as [H|H]; discriminate || exact H. }
    destruct (zip_stem_is arg stem T) as [E H]. eexists. split; [apply (ForZip _ _ stem); exact T|].
    apply zip_does; try assumption; [|apply Wf; exact T]. intros ->. apply M. exact T.
  - destruct Us as (Z & U).
    assert (T : exists stem, stem_is arg (B".tgz") stem \/ stem_is arg (B".tar.gz") stem).
    { destruct Z as [Z|Z].
      - destruct (stem_exists arg (B".tgz") Z) as (stem & T); [intros H; cbn in H; repeat destruct H as [H|H]; discriminate || exact H|]. eauto.
      - destruct (stem_exists arg (B".tar.gz") Z) as (stem & T); [intros H; cbn in H; repeat destruct H as [H|H]; discriminate || exact H|]. eauto. }
    destruct T as (stem & T). destruct (tgz_stem_is arg stem T) as [E H].
    exists (documented false (Some stem) es). split; [apply ForTgz; exact T|].
    replace (has_suffix arg (B".sql")) with false by (symmetry; destruct Z as [Z|Z]; apply (suffix_apart arg _ _ Z); reflexivity).
    replace (has_suffix arg (B".csv")) with false by (symmetry; destruct Z as [Z|Z]; apply (suffix_apart arg _ _ Z); reflexivity).
    replace (has_suffix arg (B".zip")) with false by (symmetry; destruct Z as [Z|Z]; apply (suffix_apart arg _ _ Z); reflexivity).
    replace (has_suffix arg (B".tgz") || has_suffix arg (B".tar.gz")) with true
      by (symmetry; destruct Z as [-> | ->]; [reflexivity|apply orb_true_r]).
    apply tgz_does; try assumption. apply Wf. exact T.
  - destruct Pr as [N Nd]. destruct Wf as [D U].
    assert (N1 : has_suffix arg (B".sql") = false) by exact (N "sql"%string (or_introl eq_refl)).
    assert (N2 : has_suffix arg (B".csv") = false) by exact (N "csv"%string (or_intror (or_introl eq_refl))).
    assert (N3 : has_suffix arg (B".zip") = false) by exact (N "zip"%string (or_intror (or_intror (or_introl eq_refl)))).
    assert (N4 : has_suffix arg (B".tgz") = false) by exact (N "tgz"%string (or_intror (or_intror (or_intror (or_introl eq_refl))))).
    assert (N5 : has_suffix arg (B".tar.gz") = false) by exact (N "tar.gz"%string (or_intror (or_intror (or_intror (or_intror (or_introl eq_refl)))))).
    rewrite N1, N2, N3, N4, N5. cbn [orb]. eexists. split; [apply ForDirectory|]. apply dir_does; assumption.
  - destruct Pr.
Qed.
Lemma arg_follows arg n w : well_formed arg n -> usual_node arg n -> snd w = true ->
  (exists l, stands_for sqlite arg n l /\ follows l w (load_arg sqlite works arg (Some n) w)) \/
  load_arg sqlite works arg (Some n) w = (fst w, false).
Proof.
  intros Wf Us Sw.
  assert (X : proper arg n -> exists l, stands_for sqlite arg n l /\ follows l w (load_arg sqlite works arg (Some n) w)).
  { intros Pr. destruct (arg_does arg n w Wf Us Pr Sw) as (l & St & E). exists l. split; [exact St|left; exact E]. }
  destruct n as [c|es|es|l|]; cbn [well_formed usual_node proper] in Wf, Us, X; [left; tauto..| |]; unfold load_arg.
  - destruct (has_suffix arg (B".sql")); [auto|]. destruct (has_suffix arg (B".csv")); [auto|].
    destruct (has_suffix arg (B".zip")); [auto|]. destruct (has_suffix arg (B".tgz") || has_suffix arg (B".tar.gz")); [auto|].
    destruct Wf as [D U]. left. eexists. split; [apply ForDirectory|]. apply dir_follows; assumption.
  - right. destruct (has_suffix arg (B".sql")) eqn:E1; [reflexivity|]. destruct (has_suffix arg (B".csv")) eqn:E2; [reflexivity|].
    destruct (has_suffix arg (B".zip")) eqn:E3; [reflexivity|].
    destruct (has_suffix arg (B".tgz")) eqn:E4; [reflexivity|]. destruct (has_suffix arg (B".tar.gz")) eqn:E5; [reflexivity|].
    exfalso. destruct Us as (s & I & Hs). cbn in I. destruct I as [<-|[<-|[<-|[<-|[<-|[]]]]]]; cbn [append] in Hs; congruence.
Qed.
Lemma follows_prefix l w w' : snd w = true -> follows l w w' ->
  (exists rest, fst w' ++ rest = fst w ++ l) /\ (snd w' = true -> fst w' = fst w ++ l).
Proof.
  intros Sw [-> | (a & b & -> & ->)].
  - destruct (do_all_prefix works l w) as (rest & E & T & _). split; [eauto|]. intros H. rewrite (T H), app_nil_r in E. exact E.
  - destruct (do_all_prefix works a w) as (rest & E & _). split; [|discriminate]. exists (rest ++ b).
    cbn [fst]. rewrite !app_assoc, E. reflexivity.
Qed.
Lemma args_follow fs args (w : doing) : (forall arg n, In arg args -> fs arg = Some n -> well_formed arg n /\ usual_node arg n) -> snd w = true ->
  let w' := load_args sqlite works fs args w in
  (snd w' = true -> exists all, stand_for sqlite fs args all /\ fst w' = fst w ++ all) /\
  (exists args1 args2 all rest, args = args1 ++ args2 /\ stand_for sqlite fs args1 all /\ fst w' ++ rest = fst w ++ all).
Proof.
  revert w. induction args as [|arg args IH]; intros w H Sw w'.
  - unfold w'. cbn [load_args]. split.
    + exists []. split; [constructor|]. rewrite app_nil_r. reflexivity.
    + exists [], [], [], []. split; [reflexivity|]. split; [constructor|]. reflexivity.
  - unfold w'. cbn [load_args]. clear w'. destruct (fs arg) as [n|] eqn:E.
    2:{ cbn [load_arg snd fst]. split; [discriminate|]. exists [], (arg :: args), [], []. split; [reflexivity|]. split; [constructor|]. reflexivity. }
    destruct (H arg n (or_introl eq_refl) E) as [Wf Us].
    destruct (arg_follows arg n w Wf Us Sw) as [(l & St & F)|R].
    + set (w1 := load_arg sqlite works arg (Some n) w) in *. destruct (follows_prefix l w w1 Sw F) as [(rest & P) C].
      cbv zeta. destruct (snd w1) eqn:S1.
      * destruct (IH w1 (fun a m I => H a m (or_intror I)) S1) as [X (a1 & a2 & all & rest' & Ea & St' & P')].
        rewrite (C eq_refl) in *. split.
        -- intros T. destruct (X T) as (all' & St'' & E'). exists (l ++ all'). split; [econstructor; eassumption|]. rewrite E', app_assoc. reflexivity.
        -- exists (arg :: a1), a2, (l ++ all), rest'. split; [rewrite Ea; reflexivity|]. split; [econstructor; eassumption|].
           rewrite P', app_assoc. reflexivity.
      * split; [intros T; congruence|]. exists [arg], args, (l ++ []), rest. split; [reflexivity|].
        split; [econstructor; [exact E|exact St|constructor]|]. rewrite app_nil_r. exact P.
    + rewrite R. cbv zeta. cbn [snd fst]. split; [discriminate|]. exists [], (arg :: args), [], []. split; [reflexivity|]. split; [constructor|]. reflexivity.
Qed.
(** Nothing fails without a reason. *)
Lemma args_work fs args w : (forall t a, works t a = true) -> snd w = true ->
  (forall arg, In arg args -> exists n, fs arg = Some n /\ well_formed arg n /\ usual_node arg n /\ proper arg n) ->
  snd (load_args sqlite works fs args w) = true.
Proof.
  intros Wk. revert w. induction args as [|arg args IH]; intros w Sw H; [exact Sw|]. cbn [load_args].
  destruct (H arg (or_introl eq_refl)) as (n & E & Wf & Us & Pr). rewrite E.
  destruct (arg_does arg n w Wf Us Pr Sw) as (l & _ & L). rewrite L, do_all_works by assumption. cbv zeta. cbn [snd].
  apply IH; [reflexivity|]. intros a I. apply H. right. exact I.
Qed.
End Arguments.
