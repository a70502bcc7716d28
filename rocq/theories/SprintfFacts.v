(** Proofs about Sprintf (ddl/sq.go:364-492, 679-729). *)
From Verif Require Import GoStr GoStrFacts ModelSq SpecSprintf.
From Coq Require Import ZifyBool ZifyNat ZifyN.

Definition ok_of {A} (r : result A) : option A := match r with Ok a => Some a | _ => None end.
Definition pairs (args : list arg) : list (option bytes * value) :=
  map (fun a => (arg_name a, arg_val a)) args.

(** ** Agreement of the character classes *)
Lemma quote_opens_eq d c : quote_opens d c = opens_quote d c.
Proof.
  unfold quote_opens, opens_quote, dialect_eqb, squote, dquote, backtick.
  destruct d; rewrite ?andb_false_r, ?andb_true_r, ?orb_false_r; reflexivity.
Qed.

Lemma closer_eq c : quote_closer c = closes c.
Proof. reflexivity. Qed.

Lemma word_char_eq c : word_char c = param_char c.
Proof.
  unfold word_char, param_char, underscore. destruct (is_letter c), (is_digit c), (ceqb c _); reflexivity.
Qed.

Lemma marker_char_split d c :
  marker_char d c = param_start d c || (ceqb c "?"%char && negb (dialect_eqb d Postgres)).
Proof.
  destruct d; cbn; rewrite ?andb_true_r, ?andb_false_r, ?orb_false_r; reflexivity.
Qed.

Lemma lone_start d c : lone_marker d c = true -> param_start d c = false.
Proof.
  destruct d; cbn; try discriminate; try reflexivity;
    intros H; apply ceqb_eq in H; subst c; reflexivity.
Qed.

Lemma marker_not_quote d c : marker_char d c = true -> opens_quote d c = false.
Proof.
  rewrite <- quote_opens_eq. intros H.
  destruct d; cbn in H |- *;
    repeat (apply orb_true_iff in H; destruct H as [H|H]);
    apply ceqb_eq in H; subst c; reflexivity.
Qed.

Lemma param_char_plain d c : param_char c = true -> opens_quote d c = false /\ marker_char d c = false.
Proof.
  intros H. rewrite <- quote_opens_eq.
  assert (Hn : forall x, param_char x = false -> c <> x) by (intros x Hx ->; congruence).
  assert (forall x, param_char x = false -> ceqb c x = false)
    by (intros x Hx; apply ceqb_neq, Hn; exact Hx).
  destruct d; cbn; rewrite !H0 by reflexivity; split; reflexivity.
Qed.

(** ** Lookup *)
Lemma named_index_spec args i name :
  match named_index args i name with
  | Some j => i <= j /\ exists a, nth_error args (j - i) = Some a
                /\ arg_named (pairs args) name = Some (arg_val a)
  | None => arg_named (pairs args) name = None
  end.
Proof.
  revert i; induction args as [|a args IH]; intros i; cbn [named_index]; [reflexivity|].
  specialize (IH (S i)). unfold arg_named, pairs in *. cbn [map rev].
  set (p := fun a : option bytes * value => match fst a with Some n => beqb n name | None => false end) in *.
  assert (Hf : forall l x, find p (l ++ [x]) = match find p l with Some y => Some y | None => if p x then Some x else None end).
  { clear. induction l as [|y l IHl]; intros x; cbn; [reflexivity|]. destruct (p y); [reflexivity|apply IHl]. }
  rewrite Hf. destruct (named_index args (S i) name) as [j|].
  - destruct IH as [Hle [b [Hb Hn]]]. split; [lia|]. exists b. split.
    + replace (j - i) with (S (j - S i)) by lia. exact Hb.
    + destruct (find p _); [exact Hn | discriminate].
  - destruct (find p (rev _)); [discriminate|].
    change (p (arg_name a, arg_val a)) with (match arg_name a with Some n => beqb n name | None => false end).
    destruct (arg_name a) as [n|]; [|reflexivity].
    destruct (beqb n name); [|reflexivity].
    split; [lia|]. exists a. rewrite Nat.sub_diag. split; reflexivity.
Qed.

Lemma nth_pairs args i : option_map snd (nth_error (pairs args) i) = option_map arg_val (nth_error args i).
Proof.
  unfold pairs. revert i; induction args as [|a args IH]; intros [|i]; try reflexivity. apply IH.
Qed.

Definition text (d : dialect) (v : value) : option bytes := ok_of (sprint d v).

Lemma lookup_spec d args m k :
  ok_of (lookup_param d args m k)
  = match marker_arg d (pairs args) k m with Some v => text d v | None => None end.
Proof.
  destruct m as [|c name]; [reflexivity|]. unfold lookup_param, marker_arg.
  set (num1 := match name with
               | [] => name
               | c1 :: rest' => if ceqb c "@"%char && dialect_eqb d SQLServer
                                   && (ceqb c1 "p"%char || ceqb c1 "P"%char) then rest' else name
               end).
  set (num2 := match d, name with
        | SQLServer, p :: num => if ceqb c "@"%char && (ceqb p "p"%char || ceqb p "P"%char) then num else name
        | _, _ => name
        end).
  assert (E : num1 = num2).
  { subst num1 num2. destruct name as [|p num]; [destruct d; reflexivity|].
    destruct d; cbn [dialect_eqb]; rewrite ?andb_false_r, ?andb_true_r; reflexivity. }
  rewrite <- E. clearbody num1. clear num2 E.
  destruct num1 as [|x num].
  - destruct (ceqb c "?"%char); [|reflexivity]. cbn [negb]. rewrite nth_pairs.
    destruct (nth_error args k); reflexivity.
  - destruct (dec_N (x :: num)) as [n|].
    + destruct (n =? 0)%N eqn:E0; [reflexivity|]. cbn [orb]. rewrite nth_pairs.
      destruct (N.of_nat (List.length args) <? n)%N eqn:El.
      * assert (nth_error args (N.to_nat (n - 1)) = None) as -> by (apply nth_error_None; lia).
        reflexivity.
      * destruct (nth_error args _); reflexivity.
    + destruct d; try reflexivity; pose proof (named_index_spec args 0 name) as H;
        destruct (named_index args 0 name) as [j|];
        try (rewrite H; reflexivity);
        destruct H as [_ [a [Ha Hn]]]; rewrite Nat.sub_0_r in Ha; rewrite Ha, Hn; reflexivity.
Qed.

(** ** The scanner *)
Lemma loop_body d args q body : qbody (closes q) body -> forall k out rest,
  hd_error rest <> Some (closes q) ->
  sprintf_loop d args (Inside q) [] k out (body ++ closes q :: rest)
  = sprintf_loop d args Outside [] k (out ++ body ++ [closes q]) rest.
Proof.
  induction 1 as [|c s Hc Hb IH|s Hb IH]; intros k out rest Hr.
  - cbn [app sprintf_loop]. rewrite ceqb_refl. destruct rest as [|n rest]; [reflexivity|].
    destruct (ceqb_spec n (closes q)) as [->|Hn]; [exfalso; apply Hr; reflexivity|].
    reflexivity.
  - cbn [app sprintf_loop]. apply ceqb_neq in Hc. rewrite Hc, IH by exact Hr.
    rewrite <- app_assoc. reflexivity.
  - cbn [app sprintf_loop]. rewrite ceqb_refl, IH by exact Hr.
    rewrite <- !app_assoc. reflexivity.
Qed.

Lemma loop_name d args name : forallb param_char name = true -> forall m k out rest,
  m <> [] ->
  sprintf_loop d args Outside m k out (name ++ rest)
  = sprintf_loop d args Outside (m ++ name) k out rest.
Proof.
  induction name as [|c name IH]; intros Hn m k out rest Hm.
  - rewrite app_nil_r. reflexivity.
  - cbn [forallb] in Hn. apply andb_true_iff in Hn as [Hc Hn].
    cbn [app sprintf_loop]. rewrite (proj1 (param_char_plain d c Hc)).
    destruct m as [|x m]; [congruence|]. rewrite Hc, IH by (trivial; destruct m; discriminate).
    rewrite <- app_assoc. reflexivity.
Qed.

Lemma option_map_app (out : bytes) o x :
  option_map (app (out ++ x)) o = option_map (app out) (match o with Some b => Some (x ++ b) | None => None end).
Proof. destruct o; cbn; [rewrite app_assoc|]; reflexivity. Qed.

Lemma beqb_marker c name : beqb (c :: name) (B"?") = match name with [] => ceqb c "?"%char | _ => false end.
Proof. cbn. destruct name; rewrite ?andb_true_r, ?andb_false_r; reflexivity. Qed.

Lemma loop_spec d args q ts : toks d q ts -> separated d ts -> forall k out,
  ok_of (sprintf_loop d args Outside [] k out q)
  = option_map (app out) (subst_tokens d (text d) (pairs args) k ts).
Proof.
  induction 1 as [|q body rest ts Hq Hb Hr Ht IH|c rest ts Hc Hl Ht IH
                  |c name rest ts Hc Hl Hn Hr Ht IH|c rest ts Hq Hm Ht IH]; intros Hs k out.
  - cbn. rewrite app_nil_r. reflexivity.
  - rewrite closer_eq in *. cbn [sprintf_loop]. rewrite <- quote_opens_eq, Hq.
    rewrite (loop_body d args q body Hb) by exact Hr.
    rewrite IH by exact Hs. cbn [subst_tokens]. rewrite <- option_map_app.
    cbn [app]. rewrite <- app_assoc. reflexivity.
  - cbn [sprintf_loop]. rewrite (marker_not_quote d c Hc), (lone_start d c Hl).
    rewrite marker_char_split, (lone_start d c Hl) in Hc. cbn [orb] in Hc. rewrite Hc.
    assert (Hd : dialect_eqb d SQLite = false) by (destruct d; trivial; discriminate).
    rewrite Hd. assert (c = "?"%char) as -> by (destruct d; try discriminate; apply ceqb_eq; exact Hl).
    cbn [subst_tokens]. rewrite beqb_marker, ceqb_refl.
    assert (Hm : marker_arg d (pairs args) k ["?"%char] = option_map arg_val (nth_error args k)).
    { unfold marker_arg. rewrite <- nth_pairs. destruct d; reflexivity. }
    rewrite Hm. destruct (nth_error args k) as [a|]; [|reflexivity]. cbn [option_map].
    unfold sprint_arg, text. destruct (sprint d (arg_val a)) as [v| |]; try reflexivity.
    cbn [ok_of]. rewrite IH by apply Hs. rewrite <- option_map_app. reflexivity.
  - assert (Hn' : forallb param_char name = true).
    { rewrite <- Hn. clear. induction name as [|x l IHl]; [reflexivity|]. cbn. rewrite word_char_eq, IHl. reflexivity. }
    pose proof (marker_not_quote d c Hc) as Hq.
    assert (Hstart : forall r, sprintf_loop d args Outside [] k out (c :: r)
                          = sprintf_loop d args Outside [c] k out r).
    { intros r. cbn [sprintf_loop]. rewrite Hq. rewrite marker_char_split in Hc.
      destruct (param_start d c); [reflexivity|]. cbn [orb] in Hc. rewrite Hc.
      assert (dialect_eqb d SQLite = true) as ->; [|reflexivity].
      destruct d; trivial; cbn in Hl; rewrite Hl in Hc; discriminate. }
    rewrite Hstart, loop_name by (trivial; discriminate). cbn [app].
    cbn [subst_tokens]. rewrite beqb_marker.
    pose proof (lookup_spec d args (c :: name) k) as Hlk.
    destruct Ht as [|q' body rest ts Hq' Hb Hr' Ht|c' rest ts Hc' Hl' Ht
                  |c' name' rest ts Hc' Hl' Hn'' Hr' Ht|c' rest ts Hq' Hm Ht].
    + cbn [sprintf_loop]. cbn [subst_tokens].
      destruct (lookup_param d args (c :: name) k) as [v| |]; cbn [ok_of] in Hlk |- *; rewrite <- Hlk; try reflexivity.
      rewrite app_nil_r. reflexivity.
    + exfalso. cbn [separated] in Hs. destruct name; destruct Hs as [Hs _]; congruence.
    + exfalso. cbn [separated] in Hs. destruct name; destruct Hs as [Hs _]; congruence.
    + exfalso. cbn [separated] in Hs. destruct name; destruct Hs as [Hs _]; congruence.
    + assert (Hw : param_char c' = false) by (rewrite <- word_char_eq; eapply Hr; reflexivity).
      destruct Hs as [_ Hs]. specialize (IH Hs).
      rewrite quote_opens_eq in Hq'. rewrite marker_char_split in Hm. apply orb_false_iff in Hm as [Hm1 Hm2].
      cbn [sprintf_loop]. rewrite Hq', Hw.
      destruct (lookup_param d args (c :: name) k) as [v| |]; cbn [ok_of] in Hlk; rewrite <- Hlk;
        cbn [ok_of]; try reflexivity.
      set (k' := match name with [] => _ | _ => k end).
      assert (IHk := IH k' (out ++ v)). cbn [sprintf_loop] in IHk. rewrite Hq', Hm1, Hm2 in IHk.
      rewrite <- app_assoc in IHk. rewrite IHk, option_map_app. subst k'.
      destruct name as [|x name]; [destruct (ceqb c "?"%char)|]; reflexivity.
  - cbn [sprintf_loop]. rewrite quote_opens_eq in Hq. rewrite Hq.
    rewrite marker_char_split in Hm. apply orb_false_iff in Hm as [Hm1 Hm2]. rewrite Hm1, Hm2.
    rewrite IH by exact Hs. rewrite option_map_app. reflexivity.
Qed.

Lemma sprintf_tokens d q args ts out :
  args <> [] -> toks d q ts -> separated d ts ->
  sprintf d q args = Ok out <-> subst_tokens d (text d) (pairs args) 0 ts = Some out.
Proof.
  intros Ha Ht Hs. unfold sprintf. destruct args as [|a args]; [congruence|].
  pose proof (loop_spec d (a :: args) q ts Ht Hs 0 []) as H.
  destruct (sprintf_loop _ _ _ _ _ _ _) as [r| |]; cbn [ok_of] in H;
    destruct (subst_tokens _ _ _ _ _); try discriminate; cbn in H; split; intros E;
    try discriminate; congruence.
Qed.

(** ** Every accepted query has a tokenization *)
Lemma toks_word d w rest ts :
  forallb param_char w = true -> toks d (w ++ rest) ts -> exists ts', toks d rest ts'.
Proof.
  revert ts; induction w as [|c w IH]; intros ts Hw Ht; [exists ts; exact Ht|].
  cbn in Hw. apply andb_true_iff in Hw as [Hc Hw]. destruct (param_char_plain d c Hc) as [Hq Hm].
  rewrite <- quote_opens_eq in Hq.
  cbn [app] in Ht. inversion Ht; subst; try congruence. eapply IH; eassumption.
Qed.

Fixpoint span_param (s : bytes) : bytes * bytes :=
  match s with
  | c :: s' => if param_char c then let '(a, b) := span_param s' in (c :: a, b) else ([], s)
  | [] => ([], [])
  end.

Lemma span_param_spec s a b : span_param s = (a, b) ->
  s = a ++ b /\ forallb param_char a = true /\ (forall c b', b = c :: b' -> param_char c = false).
Proof.
  revert a b; induction s as [|c s IH]; intros a b; cbn.
  - intros [= <- <-]. repeat split. discriminate.
  - destruct (param_char c) eqn:Ec.
    + destruct (span_param s) as [a' b']. intros [= <- <-]. destruct (IH a' b' eq_refl) as (-> & H2 & H3).
      cbn. rewrite Ec, H2. auto.
    + intros [= <- <-]. repeat split. intros c' b' [= <- _]. exact Ec.
Qed.

Lemma toks_cons d c q ts :
  opens_quote d c = false -> toks d q ts -> exists ts', toks d (c :: q) ts'.
Proof.
  intros Hq Ht. destruct (marker_char d c) eqn:Em.
  - destruct (lone_marker d c) eqn:El.
    + eexists. eapply toks_lone; eassumption.
    + destruct (span_param q) as [a b] eqn:E. apply span_param_spec in E as (-> & H2 & H3).
      destruct (toks_word _ _ _ _ H2 Ht) as [ts' Hts].
      eexists. eapply toks_marker; try eassumption.
      * rewrite <- H2. clear. induction a as [|x a IH]; [reflexivity|]. cbn. rewrite word_char_eq, IH. reflexivity.
      * intros c' b' Hb. rewrite word_char_eq. eapply H3. exact Hb.
  - eexists. apply toks_other; try eassumption. rewrite quote_opens_eq. exact Hq.
Qed.

Lemma loop_toks d args n : forall q st param k out r,
  List.length q <= n ->
  sprintf_loop d args st param k out q = Ok r ->
  match st with
  | Outside => exists ts, toks d q ts
  | Inside qc => exists body rest ts, q = body ++ closes qc :: rest /\ qbody (closes qc) body
                   /\ hd_error rest <> Some (closes qc) /\ toks d rest ts
  | MustWrite qc => exists c body rest ts, q = c :: body ++ closes qc :: rest /\ qbody (closes qc) body
                   /\ hd_error rest <> Some (closes qc) /\ toks d rest ts
  end.
Proof.
  induction n as [|n IH]; intros q st param k out r Hl H.
  { destruct q; [|cbn in Hl; lia]. cbn in H. destruct st.
    - exists []. constructor.
    - destruct param; [discriminate|]. destruct (lookup_param d args (a :: param) k); discriminate.
    - destruct param; [discriminate|]. destruct (lookup_param d args (a :: param) k); discriminate. }
  destruct q as [|c q].
  { cbn in H. destruct st.
    - exists []. constructor.
    - destruct param; [discriminate|]. destruct (lookup_param d args (a :: param) k); discriminate.
    - destruct param; [discriminate|]. destruct (lookup_param d args (a :: param) k); discriminate. }
  cbn [List.length] in Hl. assert (Hl' : List.length q <= n) by lia. clear Hl.
  cbn [sprintf_loop] in H. destruct st as [|qc|qc].
  - destruct (opens_quote d c) eqn:Eq.
    + apply IH in H; [|exact Hl']. destruct H as (body & rest & ts & -> & H2 & H3 & H4).
      eexists. eapply toks_quoted; try eassumption. rewrite quote_opens_eq. exact Eq.
    + assert (Hts : exists ts, toks d q ts).
      { destruct param as [|p param].
        - destruct (param_start d c); [apply IH in H; assumption|].
          destruct (ceqb c "?"%char && negb (dialect_eqb d Postgres)); [|apply IH in H; assumption].
          destruct (dialect_eqb d SQLite); [apply IH in H; assumption|].
          destruct (nth_error args k); [|discriminate].
          destruct (sprint_arg d a); try discriminate. apply IH in H; assumption.
        - destruct (param_char c); [apply IH in H; assumption|].
          destruct (lookup_param d args (p :: param) k); try discriminate. apply IH in H; assumption. }
      destruct Hts as [ts Hts]. eapply toks_cons; eassumption.
  - destruct (ceqb_spec c (closes qc)) as [->|Hn].
    + destruct q as [|n' q].
      * apply IH in H; [|exact Hl']. destruct H as [ts Hts]. exists [], [], ts.
        repeat split; try assumption; [constructor|discriminate].
      * destruct (ceqb_spec n' (closes qc)) as [->|Hn'].
        -- apply IH in H; [|exact Hl'].
           destruct H as (c & body & rest & ts & E & H2 & H3 & H4). injection E as <- E. subst q.
           exists (closes qc :: closes qc :: body), rest, ts. repeat split; try assumption.
           apply qb_pair. exact H2.
        -- apply IH in H; [|exact Hl']. destruct H as [ts Hts].
           exists [], (n' :: q), ts. repeat split; try assumption; [constructor|cbn; congruence].
    + apply IH in H; [|exact Hl']. destruct H as (body & rest & ts & -> & H2 & H3 & H4).
      exists (c :: body), rest, ts. repeat split; try assumption. constructor; assumption.
  - apply IH in H; [|exact Hl']. destruct H as (body & rest & ts & -> & H2 & H3 & H4).
    exists c, body, rest, ts. repeat split; assumption.
Qed.

Lemma sprintf_toks d q args out :
  args <> [] -> sprintf d q args = Ok out -> exists ts, toks d q ts.
Proof.
  intros Ha H. unfold sprintf in H. destruct args as [|a args]; [congruence|].
  apply (loop_toks d (a :: args) (List.length q)) in H; trivial.
Qed.

(** ** Panics *)
Lemma sprint_no_panic d v : sprint d v <> Panic.
Proof. destruct v as [| | | | |[]]; discriminate. Qed.

Definition count_q (s : bytes) : nat := List.length (filter (ceqb "?"%char) s).

Lemma lookup_panic d args p ps k :
  lookup_param d args (p :: ps) k = Panic -> p = "?"%char /\ List.length args <= k.
Proof.
  intros H. pose proof sprint_no_panic as Hp. unfold lookup_param in H.
  destruct (match ps with [] => ps | _ => _ end) as [|x num].
  - destruct (ceqb_spec p "?"%char) as [->|]; [|discriminate]. cbn [negb] in H.
    destruct (nth_error args k) eqn:E; [exfalso; eapply Hp; exact H|].
    split; [reflexivity|]. apply nth_error_None. exact E.
  - destruct (dec_N (x :: num)) as [n|].
    + destruct ((n =? 0)%N || (N.of_nat (List.length args) <? n)%N) eqn:E; [discriminate|].
      destruct (nth_error args (N.to_nat (n - 1))) eqn:En.
      * exfalso; eapply Hp; exact H.
      * apply nth_error_None in En. apply orb_false_iff in E as [E1 E2]. lia.
    + destruct d; try discriminate; destruct (named_index args 0 ps) as [i|]; try discriminate;
        destruct (nth_error args i); try discriminate; exfalso; eapply Hp; exact H.
Qed.

(** [need] positional markers may still be looked up. *)
Lemma loop_no_panic d args q : forall st param k out,
  (match param with [] => True | p :: _ => p = "?"%char -> d = SQLite end) ->
  (d = SQLite -> k + (match param with [p] => if ceqb p "?"%char then 1 else 0
                                   | p :: _ => if ceqb p "?"%char then 1 else 0 | [] => 0 end)
                 + count_q q <= List.length args) ->
  sprintf_loop d args st param k out q <> Panic.
Proof.
  assert (Hlk : forall p ps k, (p = "?"%char -> d = SQLite) ->
     (d = SQLite -> k + (if ceqb p "?"%char then 1 else 0) <= List.length args) ->
     lookup_param d args (p :: ps) k <> Panic).
  { intros p ps k H1 H2 H. apply lookup_panic in H as [-> H]. specialize (H2 (H1 eq_refl)).
    rewrite ceqb_refl in H2. lia. }
  induction q as [|c q IH]; intros st param k out Hp Hk.
  - cbn [sprintf_loop]. destruct param as [|p ps]; [destruct st; discriminate|].
    specialize (Hlk p ps k Hp). destruct (lookup_param d args (p :: ps) k); try (destruct st; discriminate).
    intros _. apply Hlk; [|reflexivity]. intros E. specialize (Hk E). destruct ps; lia.
  - assert (Hcq : count_q q <= count_q (c :: q)) by (unfold count_q; cbn [filter]; destruct (ceqb "?" c); cbn [List.length]; lia).
    cbn [sprintf_loop]. destruct st as [|qc|qc].
    + destruct (opens_quote d c) eqn:Eq; [apply IH; [exact Hp | intros E; specialize (Hk E); lia]|].
      destruct param as [|p ps].
      * destruct (param_start d c) eqn:Es.
        -- apply IH; [intros ->; destruct d; try discriminate; reflexivity|].
           intros E; specialize (Hk E). subst d. destruct (ceqb_spec c "?"%char) as [->|]; [discriminate|lia].
        -- destruct (ceqb c "?"%char && negb (dialect_eqb d Postgres)) eqn:Eqm.
           ++ apply andb_true_iff in Eqm as [Ec _]. apply ceqb_eq in Ec. subst c.
              destruct (dialect_eqb d SQLite) eqn:Ed.
              ** apply IH; [intros _; destruct d; trivial; discriminate|].
                 intros E; specialize (Hk E). rewrite ceqb_refl. unfold count_q in *. cbn in Hk. lia.
              ** destruct (nth_error args k) as [a|]; [|discriminate].
                 pose proof (sprint_no_panic d (arg_val a)) as Hsp. unfold sprint_arg.
                 destruct (sprint d (arg_val a)); try discriminate; [|congruence].
                 apply IH; [exact I|]. intros ->. discriminate.
           ++ apply IH; [exact I|]. intros E; specialize (Hk E). lia.
      * destruct (param_char c) eqn:Epc.
        -- apply IH; [exact Hp|]. intros E; specialize (Hk E).
           cbn [app]. destruct ps; cbn [app]; lia.
        -- specialize (Hlk p ps k Hp). destruct (lookup_param d args (p :: ps) k); try discriminate.
           ++ apply IH; [exact I|]. intros E; specialize (Hk E).
              destruct ps; [|lia]. destruct (ceqb p "?"%char); lia.
           ++ intros _. apply Hlk; [|reflexivity]. intros E; specialize (Hk E). destruct ps; lia.
    + assert (H' : forall st' o, sprintf_loop d args st' param k o q <> Panic)
        by (intros; apply IH; [exact Hp | intros E; specialize (Hk E); lia]).
      destruct (ceqb c (closes qc)); [destruct q as [|n q]; [apply H'|destruct (ceqb n (closes qc)); apply H']|apply H'].
    + apply IH; [exact Hp | intros E; specialize (Hk E); lia].
Qed.

Lemma sprintf_no_panic d q args :
  (d = SQLite -> args = [] \/ count_q q <= List.length args) -> sprintf d q args <> Panic.
Proof.
  intros H. unfold sprintf. destruct args as [|a args]; [discriminate|].
  apply loop_no_panic; [exact I|]. intros E. destruct (H E); [discriminate|]. lia.
Qed.
