(** Proofs about the helper functions of ddl/ddl.go. *)
From Verif Require Import GoStr GoStrFacts ModelDdl SpecArgs SqFacts.
From Coq Require Import ZifyBool ZifyNat.

(** ** Versions *)
(** The order on version lists: they agree up to a position where the first is
    smaller. *)
Definition lex_lower (v w : list Z) : Prop :=
  exists p x y v' w', v = p ++ x :: v' /\ w = p ++ y :: w' /\ (x < y)%Z.

Lemma lower_than_spec v w : lower_than v w = true <-> lex_lower v w.
Proof.
  revert w; induction v as [|x v IH]; intros w.
  - split; [discriminate|]. intros (p & x & y & v' & w' & H & _). destruct p; discriminate.
  - destruct w as [|y w]; cbn [lower_than].
    + split; [discriminate|]. intros (p & x' & y & v' & w' & _ & H & _). destruct p; discriminate.
    + destruct (Z.ltb_spec y x) as [H1|H1]; [|destruct (Z.ltb_spec x y) as [H2|H2]].
      * split; [discriminate|]. intros (p & a & b & v' & w' & E1 & E2 & Hab).
        destruct p as [|z p]; cbn in E1, E2; injection E1 as -> ->; injection E2 as -> ->; lia.
      * split; [|reflexivity]. intros _. exists [], x, y, v, w. repeat split. exact H2.
      * assert (x = y) by lia. subst y. rewrite IH. split.
        -- intros (p & a & b & v' & w' & -> & -> & Hab). exists (x :: p), a, b, v', w'. auto.
        -- intros (p & a & b & v' & w' & E1 & E2 & Hab). destruct p as [|z p]; cbn in E1, E2.
           ++ injection E1 as -> ->; injection E2 as -> ->. lia.
           ++ injection E1 as _ ->; injection E2 as _ ->. exists p, a, b, v', w'. auto.
Qed.

Lemma lower_than_irrefl v : lower_than v v = false.
Proof.
  induction v as [|x v IH]; [reflexivity|]. cbn. rewrite Z.ltb_irrefl. exact IH.
Qed.

Lemma lower_than_trans a b c :
  lower_than a b = true -> lower_than b c = true -> lower_than a c = true.
Proof.
  revert b c; induction a as [|x a IH]; intros [|y b] [|z c]; cbn; try discriminate.
  destruct (Z.ltb_spec y x), (Z.ltb_spec x y), (Z.ltb_spec z y), (Z.ltb_spec y z),
    (Z.ltb_spec z x), (Z.ltb_spec x z); try discriminate; try reflexivity; try lia.
  apply IH.
Qed.

Lemma lower_than_total a b :
  List.length a = List.length b -> a = b \/ lower_than a b = true \/ lower_than b a = true.
Proof.
  revert b; induction a as [|x a IH]; intros [|y b] H; try discriminate; [left; reflexivity|].
  cbn. injection H as H. destruct (Z.ltb_spec y x), (Z.ltb_spec x y); try lia; auto.
  assert (x = y) by lia. subst. destruct (IH b H) as [->|[->| ->]]; auto.
Qed.

Lemma lower_than_mono v v' nums :
  Forall2 Z.le v v' -> lower_than v' nums = true -> lower_than v nums = true.
Proof.
  intros H; revert nums; induction H as [|x x' v v' Hx Hv IH]; intros [|y nums]; cbn; try discriminate.
  destruct (Z.ltb_spec y x'), (Z.ltb_spec x' y), (Z.ltb_spec y x), (Z.ltb_spec x y);
    try discriminate; try reflexivity; try lia.
  all: apply IH.
Qed.

Lemma lower_than_major x v n : lower_than (x :: v) [n] = (x <? n)%Z.
Proof.
  cbn. destruct (Z.ltb_spec n x), (Z.ltb_spec x n); try lia; try reflexivity.
  destruct v; reflexivity.
Qed.

Lemma version_complement v nums : greater_or_equal_to v nums = negb (lower_than v nums).
Proof. reflexivity. Qed.

(** ** Generated names *)
Definition under (s : bytes) : bytes := map (fun c => if ceqb c SPACE then underscore else c) s.

Lemma write_name_spec b s : write_name b s = b ++ under s.
Proof.
  unfold write_name. revert b; induction s as [|c s IH]; intros b; cbn.
  - rewrite app_nil_r. reflexivity.
  - rewrite IH, <- app_assoc. reflexivity.
Qed.

Definition joined (table : bytes) (cols : list bytes) : bytes :=
  join (B"_") (map under (table :: cols)).

Lemma write_cols_spec cols b :
  fold_left (fun b col => write_name (b ++ B"_") col) cols b
  = b ++ flat_map (fun c => B"_" ++ under c) cols.
Proof.
  revert b; induction cols as [|c cols IH]; intros b; cbn [fold_left flat_map].
  - rewrite app_nil_r. reflexivity.
  - rewrite IH, write_name_spec, <- !app_assoc. reflexivity.
Qed.

Lemma joined_spec table cols :
  joined table cols = under table ++ flat_map (fun c => B"_" ++ under c) cols.
Proof.
  unfold joined. revert table; induction cols as [|c cols IH]; intros t.
  - cbn. rewrite app_nil_r. reflexivity.
  - cbn [map]. rewrite join_cons by discriminate. cbn [map] in IH. rewrite IH. reflexivity.
Qed.

Lemma generate_name_spec k table cols :
  generate_name k table cols
  = firstn (63 - List.length (kind_suffix k)) (joined table cols) ++ kind_suffix k.
Proof.
  unfold generate_name. rewrite write_cols_spec, write_name_spec. cbn [app].
  rewrite <- joined_spec. set (b := joined table cols). clearbody b.
  assert (Hs : List.length (kind_suffix k) <= 6) by (destruct k; cbn; lia).
  destruct (0 <? List.length b + List.length (kind_suffix k) - 63) eqn:E.
  - f_equal. f_equal. lia.
  - rewrite firstn_all2 by lia. reflexivity.
Qed.

Lemma generate_name_length k table cols : List.length (generate_name k table cols) <= 63.
Proof.
  rewrite generate_name_spec, app_length, firstn_length.
  assert (Hs : List.length (kind_suffix k) <= 6) by (destruct k; cbn; lia). lia.
Qed.

Lemma generate_name_fits k table cols :
  List.length (joined table cols) + List.length (kind_suffix k) <= 63 ->
  generate_name k table cols = joined table cols ++ kind_suffix k.
Proof. intros H. rewrite generate_name_spec, firstn_all2 by lia. reflexivity. Qed.

Lemma split_byte_join c l :
  l <> [] -> Forall (fun w => ~ In c w) l -> split_byte c (join [c] l) = l.
Proof.
  intros Hne H. induction H as [|w l Hw Hl IH]; [congruence|].
  assert (Hpre : forall w rest, ~ In c w -> split_byte c (w ++ c :: rest) = w :: split_byte c rest).
  { clear. induction w as [|x w IH]; intros rest Hw; cbn.
    - rewrite ceqb_refl. reflexivity.
    - destruct (ceqb_spec x c) as [->|_]; [exfalso; apply Hw; left; reflexivity|].
      rewrite IH by (intros Hi; apply Hw; right; exact Hi). reflexivity. }
  assert (Hone : forall w, ~ In c w -> split_byte c w = [w]).
  { clear. induction w as [|x w IH]; intros Hw; cbn; [reflexivity|].
    destruct (ceqb_spec x c) as [->|_]; [exfalso; apply Hw; left; reflexivity|].
    rewrite IH by (intros Hi; apply Hw; right; exact Hi). reflexivity. }
  destruct l as [|w' l].
  - cbn. apply Hone. exact Hw.
  - rewrite join_cons by discriminate. cbn [app]. rewrite Hpre by exact Hw. rewrite IH by discriminate.
    reflexivity.
Qed.

Lemma under_id s : ~ In SPACE s -> under s = s.
Proof.
  induction s as [|c s IH]; intros H; [reflexivity|]. unfold under in *. cbn [map].
  destruct (ceqb_spec c SPACE) as [->|_]; [exfalso; apply H; left; reflexivity|].
  f_equal. apply IH. intros Hi. apply H. right. exact Hi.
Qed.

Lemma map_under_id (l : list bytes) :
  Forall (fun w : bytes => ~ In underscore w /\ ~ In SPACE w) l -> map under l = l.
Proof.
  intros H. induction H as [|w l [_ Hw] _ IH]; [reflexivity|].
  cbn [map]. rewrite (under_id w Hw), IH. reflexivity.
Qed.

Lemma joined_plain (t : bytes) (c : list bytes) :
  Forall (fun w : bytes => ~ In underscore w /\ ~ In SPACE w) (t :: c) ->
  joined t c = join (B"_") (t :: c).
Proof. intros H. unfold joined. f_equal. apply map_under_id. exact H. Qed.

(** The suffix without its underscore. *)
Definition kind_word (k : name_kind) : bytes := tl (kind_suffix k).

Lemma generate_name_inj k1 (t1 : bytes) (c1 : list bytes) k2 (t2 : bytes) (c2 : list bytes) :
  k1 <> OtherKind -> k2 <> OtherKind ->
  Forall (fun w : bytes => ~ In underscore w /\ ~ In SPACE w) (t1 :: c1) ->
  Forall (fun w : bytes => ~ In underscore w /\ ~ In SPACE w) (t2 :: c2) ->
  List.length (joined t1 c1) <= 57 -> List.length (joined t2 c2) <= 57 ->
  generate_name k1 t1 c1 = generate_name k2 t2 c2 ->
  k1 = k2 /\ t1 = t2 /\ c1 = c2.
Proof.
  intros Hk1 Hk2 H1 H2 L1 L2 E.
  assert (Hs : forall k, List.length (kind_suffix k) <= 6) by (intros []; cbn; lia).
  rewrite !generate_name_fits in E by (pose proof (Hs k1); pose proof (Hs k2); lia).
  assert (Hj : forall k (t : bytes) (c : list bytes), k <> OtherKind ->
    Forall (fun w : bytes => ~ In underscore w /\ ~ In SPACE w) (t :: c) ->
    joined t c ++ kind_suffix k = join (B"_") ((t :: c) ++ [kind_word k])).
  { intros k t c Hk H. rewrite (joined_plain t c H). 
    assert (kind_suffix k = B"_" ++ kind_word k) as -> by (destruct k; try reflexivity; congruence).
    generalize (kind_word k) as x. clear. intros x. revert t. induction c as [|w c IH]; intros t; [reflexivity|].
    cbn [app]. rewrite (join_cons _ t (w :: c)), (join_cons _ t (w :: c ++ [x])) by discriminate.
    change (w :: c ++ [x]) with ((w :: c) ++ [x]). rewrite <- IH. rewrite <- !app_assoc. reflexivity. }
  rewrite !Hj in E by assumption.
  assert (Hw : forall k, ~ In underscore (kind_word k)).
  { intros k. destruct k; cbn; intuition discriminate. }
  assert (Hf : forall k (t : bytes) (c : list bytes), Forall (fun w : bytes => ~ In underscore w /\ ~ In SPACE w) (t :: c) ->
     split_byte underscore (join (B"_") ((t :: c) ++ [kind_word k])) = (t :: c) ++ [kind_word k]).
  { intros k t c H. apply split_byte_join; [discriminate|]. apply Forall_app. split.
    - eapply Forall_impl; [|exact H]. cbn. tauto.
    - constructor; [apply Hw | constructor]. }
  assert (E' : (t1 :: c1) ++ [kind_word k1] = (t2 :: c2) ++ [kind_word k2]).
  { rewrite <- (Hf k1 t1 c1 H1), <- (Hf k2 t2 c2 H2), E. reflexivity. }
  apply app_inj_tail in E' as [E1 E2]. injection E1 as -> ->. split; [|auto].
  destruct k1, k2; try reflexivity; try congruence; discriminate.
Qed.

(** ** Brackets *)
Lemma wrapped_spec s : wrapped_in_brackets s = true <-> exists m, s = "("%char :: m ++ [")"%char].
Proof.
  unfold wrapped_in_brackets, last_byte. split.
  - destruct s as [|a s]; [discriminate|]. cbn [hd_error].
    destruct (rev (a :: s)) as [|b r] eqn:Er; [discriminate|]. cbn [hd_error].
    intros H. apply andb_true_iff in H as [H1 H2]. apply ceqb_eq in H1, H2. subst a b.
    assert (E : "("%char :: s = rev r ++ [")"%char]) by (rewrite <- (rev_involutive ("("%char :: s)), Er; reflexivity).
    destruct (rev r) as [|x m]; [discriminate|]. injection E as _ ->. exists m. reflexivity.
  - intros [m ->]. cbn [hd_error].
    assert (rev ("("%char :: m ++ [")"%char]) = ")"%char :: rev ("("%char :: m)) as ->.
    { cbn. rewrite rev_app_distr. reflexivity. }
    reflexivity.
Qed.

Lemma wrap_wrapped s : s <> [] -> wrapped_in_brackets (wrap_brackets s) = true.
Proof.
  intros H. unfold wrap_brackets. destruct s as [|a s]; [congruence|].
  destruct (wrapped_in_brackets (a :: s)) eqn:E; [exact E|]. apply wrapped_spec. exists (a :: s). reflexivity.
Qed.

Lemma wrap_idem s : wrap_brackets (wrap_brackets s) = wrap_brackets s.
Proof.
  destruct s as [|a s]; [reflexivity|].
  pose proof (wrap_wrapped (a :: s) ltac:(discriminate)) as H.
  destruct (wrap_brackets (a :: s)) as [|b t] eqn:E; [discriminate|].
  unfold wrap_brackets at 1. rewrite H. reflexivity.
Qed.

Lemma unwrap_wrap s :
  wrapped_in_brackets s = false -> unwrap_brackets (wrap_brackets s) = s.
Proof.
  intros H. destruct s as [|a s]; [reflexivity|]. unfold wrap_brackets. rewrite H.
  unfold unwrap_brackets. assert (wrapped_in_brackets (B"(" ++ (a :: s) ++ B")") = true) as ->.
  { apply wrapped_spec. exists (a :: s). reflexivity. }
  change (tl (B"(" ++ (a :: s) ++ B")")) with ((a :: s) ++ [")"%char]).
  apply removelast_last.
Qed.

(** ** splitArgs *)
Lemma next_comma_split st s a b : next_comma st s = Some (a, b) -> s = a ++ ","%char :: b.
Proof.
  revert st a b; induction s as [|c s IH]; intros st a b; [discriminate|].
  cbn [next_comma].
  assert (Hskip : forall st', match next_comma st' s with Some (a, b) => Some (c :: a, b) | None => None end = Some (a, b) ->
            c :: s = a ++ ","%char :: b).
  { intros st'. destruct (next_comma st' s) as [[a' b']|] eqn:E; [|discriminate].
    intros [= <- <-]. apply IH in E. rewrite E. reflexivity. }
  destruct st.
  - destruct (ceqb c "["%char); [apply Hskip|]. destruct (ceqb c "("%char); [apply Hskip|].
    destruct (ceqb c squote); [apply Hskip|].
    destruct (ceqb_spec c ","%char) as [->|]; [|apply Hskip].
    intros [= <- <-]. reflexivity.
  - destruct (ceqb c squote); [|apply Hskip]. destruct s as [|x s]; [discriminate|].
    destruct (ceqb x squote); apply Hskip.
  - apply Hskip.
  - destruct (ceqb c ")"%char); [apply Hskip|]. destruct (ceqb c "("%char); apply Hskip.
  - destruct (ceqb c "]"%char); [apply Hskip|]. destruct (ceqb c "["%char); apply Hskip.
Qed.

Lemma split_args_loop_join fuel s :
  List.length s < fuel -> split_args_loop fuel s <> [] /\ join (B",") (split_args_loop fuel s) = s.
Proof.
  revert s; induction fuel as [|fuel IH]; intros s H; [lia|]. cbn [split_args_loop].
  destruct (next_comma SaTop s) as [[a b]|] eqn:E.
  - apply next_comma_split in E. subst s. rewrite app_length in H. cbn [List.length] in H.
    destruct (IH b ltac:(lia)) as [H1 H2]. split; [discriminate|].
    rewrite join_cons by exact H1. rewrite H2. reflexivity.
  - split; [discriminate|reflexivity].
Qed.

Lemma split_args_join s : join (B",") (split_args s) = s.
Proof.
  unfold split_args. destruct s as [|c s]; [reflexivity|].
  apply split_args_loop_join. lia.
Qed.

(** Scanning an argument up to a comma or the end. *)
Definition prepend (p : bytes) (o : option (bytes * bytes)) : option (bytes * bytes) :=
  match o with Some (a, b) => Some (p ++ a, b) | None => None end.

Lemma prepend_app p q o : prepend (p ++ q) o = prepend p (prepend q o).
Proof. destruct o as [[a b]|]; cbn; [rewrite app_assoc|]; reflexivity. Qed.

Lemma next_comma_skip (c : ascii) st s :
  match next_comma st s with Some (a, b) => Some (c :: a, b) | None => None end
  = prepend [c] (next_comma st s).
Proof. reflexivity. Qed.

Ltac pre :=
  match goal with
  | |- context [prepend _ (next_comma ?st ?r)] => destruct (next_comma st r) as [[? ?]|]
  end; cbn [prepend app]; rewrite <- ?app_assoc; cbn [app]; reflexivity.

Lemma nc_strbody b : strbody b -> forall rest,
  hd_error rest <> Some squote ->
  next_comma SaStr (b ++ squote :: rest) = prepend (b ++ [squote]) (next_comma SaTop rest).
Proof.
  induction 1 as [|c s Hc Hs IH|s Hs IH]; intros rest Hr.
  - cbn [app next_comma]. rewrite ceqb_refl. destruct rest as [|x rest]; [reflexivity|].
    destruct (ceqb_spec x squote) as [->|_]; [exfalso; apply Hr; reflexivity|]. reflexivity.
  - cbn [app next_comma]. apply ceqb_neq in Hc. change "'"%char with squote in Hc. rewrite Hc, IH by exact Hr.
    pre.
  - change "'"%char with squote. cbn [app next_comma]. rewrite ceqb_refl, IH by exact Hr.
    pre.
Qed.

Lemma nc_paren g : group "("%char ")"%char g -> forall n rest,
  next_comma (SaParen n) (g ++ rest) = prepend g (next_comma (SaParen n) rest).
Proof.
  induction 1 as [|x s H1 H2 H3 Hs IH|a b Ha IHa Hb IHb]; intros n rest.
  - cbn [app]. pre.
  - apply ceqb_neq in H1, H2. cbn [app next_comma]. rewrite H1, H2, IH.
    pre.
  - cbn [app]. rewrite <- app_assoc. cbn [app next_comma]. cbn [ceqb Ascii.eqb Bool.eqb].
    change (ceqb "(" ")") with false. change (ceqb "(" "(") with true. cbv iota.
    rewrite IHa. cbn [next_comma]. change (ceqb ")" ")") with true. cbv iota. rewrite IHb.
    pre.
Qed.

Lemma nc_array g : group "["%char "]"%char g -> forall n rest,
  next_comma (SaArray n) (g ++ rest) = prepend g (next_comma (SaArray n) rest).
Proof.
  induction 1 as [|x s H1 H2 H3 Hs IH|a b Ha IHa Hb IHb]; intros n rest.
  - cbn [app]. pre.
  - apply ceqb_neq in H1, H2. cbn [app next_comma]. rewrite H1, H2, IH.
    pre.
  - cbn [app]. rewrite <- app_assoc. cbn [app next_comma].
    change (ceqb "[" "]") with false. change (ceqb "[" "[") with true. cbv iota.
    rewrite IHa. cbn [next_comma]. change (ceqb "]" "]") with true. cbv iota. rewrite IHb.
    pre.
Qed.

(** An argument that starts with a string literal directly after one continues it;
    the statement covers both the top level and the inside of a literal. *)
Lemma nc_argument n : forall w, List.length w <= n -> argument w -> forall rest,
  hd_error rest <> Some squote ->
  next_comma SaTop (w ++ rest) = prepend w (next_comma SaTop rest)
  /\ (forall w', w = squote :: w' ->
        next_comma SaSkip (w ++ rest) = prepend w (next_comma SaTop rest)).
Proof.
  induction n as [|n IH]; intros w Hl Hw rest Hr.
  { destruct w; [|cbn in Hl; lia]. split; [|discriminate].
    cbn [app]. destruct (next_comma SaTop rest) as [[? ?]|]; reflexivity. }
  destruct Hw as [|c s H1 H2 H3 H4 Hs|b s Hb Hs|g s Hg Hs|g s Hg Hs].
  - split; [|discriminate]. cbn [app]. destruct (next_comma SaTop rest) as [[? ?]|]; reflexivity.
  - split; [|intros w' [= E _]; exfalso; apply H2; exact E].
    apply ceqb_neq in H1, H2, H3, H4. cbn [app next_comma]. change squote with "'"%char. rewrite H1, H2, H3, H4.
    cbn [List.length] in Hl.
    rewrite (proj1 (IH s ltac:(lia) Hs rest Hr)). pre.
  - (* string literal *)
    cbn [List.length] in Hl. rewrite app_length in Hl. cbn [List.length] in Hl.
    destruct (IH s ltac:(lia) Hs rest Hr) as [IH1 IH2].
    assert (Hbody : next_comma SaStr (b ++ squote :: s ++ rest)
                    = prepend (b ++ squote :: s) (next_comma SaTop rest)).
    { replace (b ++ squote :: s) with ((b ++ [squote]) ++ s) by (rewrite <- app_assoc; reflexivity).
      rewrite prepend_app.
      destruct s as [|x s].
      - rewrite nc_strbody by (trivial; exact Hr). cbn [app].
        destruct (next_comma SaTop rest) as [[? ?]|]; reflexivity.
      - destruct (ceqb_spec x squote) as [->|Hx].
        + specialize (IH2 s eq_refl).
          assert (Hg : forall b, strbody b -> next_comma SaStr (b ++ squote :: (squote :: s) ++ rest)
                         = prepend (b ++ [squote]) (next_comma SaSkip ((squote :: s) ++ rest))).
          { clear - IH2. induction 1 as [|c t Hc Ht IHt|t Ht IHt].
            - cbn [app next_comma]. rewrite ceqb_refl. reflexivity.
            - change ((c :: t) ++ squote :: (squote :: s) ++ rest) with (c :: (t ++ squote :: (squote :: s) ++ rest)).
              cbn [next_comma]. apply ceqb_neq in Hc. change squote with "'"%char at 1. rewrite Hc.
              rewrite IHt. pre.
            - change "'"%char with squote.
              change ((squote :: squote :: t) ++ squote :: (squote :: s) ++ rest)
                with (squote :: squote :: (t ++ squote :: (squote :: s) ++ rest)).
              cbn [next_comma]. rewrite ceqb_refl, IHt.
              pre. }
          rewrite Hg by exact Hb. rewrite IH2. reflexivity.
        + rewrite nc_strbody; [|exact Hb|cbn; congruence]. rewrite IH1. reflexivity. }
    split.
    + change ("'"%char :: b ++ "'"%char :: s) with (squote :: b ++ squote :: s).
      cbn [app]. rewrite <- app_assoc. cbn [app next_comma].
      change (ceqb squote "[") with false. change (ceqb squote "(") with false. rewrite ceqb_refl. cbv iota.
      rewrite Hbody. pre.
    + intros w' _. change ("'"%char :: b ++ "'"%char :: s) with (squote :: b ++ squote :: s).
      cbn [app]. rewrite <- app_assoc. cbn [app next_comma].
      rewrite Hbody. pre.
  - split; [|discriminate].
    cbn [List.length] in Hl. rewrite app_length in Hl. cbn [List.length] in Hl.
    cbn [app]. rewrite <- app_assoc. cbn [app next_comma].
    change (ceqb "(" "[") with false. change (ceqb "(" "(") with true. cbv iota.
    rewrite nc_paren by exact Hg. cbn [next_comma]. change (ceqb ")" ")") with true. cbv iota.
    rewrite (proj1 (IH s ltac:(lia) Hs rest Hr)).
    pre.
  - split; [|discriminate].
    cbn [List.length] in Hl. rewrite app_length in Hl. cbn [List.length] in Hl.
    cbn [app]. rewrite <- app_assoc. cbn [app next_comma].
    change (ceqb "[" "[") with true. cbv iota.
    rewrite nc_array by exact Hg. cbn [next_comma]. change (ceqb "]" "]") with true. cbv iota.
    rewrite (proj1 (IH s ltac:(lia) Hs rest Hr)).
    pre.
Qed.

Lemma split_args_exact l :
  l <> [] -> Forall argument l -> join (B",") l <> [] -> split_args (join (B",") l) = l.
Proof.
  intros Hne Hl Hj. unfold split_args. destruct (join (B",") l) as [|c s] eqn:E; [congruence|].
  rewrite <- E. clear Hj.
  assert (Hgen : forall fuel, List.length (join (B",") l) < fuel -> split_args_loop fuel (join (B",") l) = l).
  { clear E c s. induction Hl as [|w l Hw Hl IH]; [congruence|].
    intros fuel Hf. destruct fuel as [|fuel]; [lia|]. cbn [split_args_loop].
    destruct l as [|w' l].
    - cbn [join]. pose proof (proj1 (nc_argument _ w (le_n _) Hw [] ltac:(discriminate))) as H.
      rewrite app_nil_r in H. rewrite H. reflexivity.
    - rewrite join_cons in Hf |- * by discriminate.
      pose proof (nc_argument _ w (le_n _) Hw (B"," ++ join (B",") (w' :: l)) ltac:(discriminate)) as [H _].
      rewrite H. clear H.
      assert (Hc : next_comma SaTop (B"," ++ join (B",") (w' :: l)) = Some ([], join (B",") (w' :: l)))
        by reflexivity.
      rewrite Hc. cbn [prepend]. rewrite app_nil_r. f_equal. apply IH; [discriminate|].
      rewrite !app_length in Hf. assert (List.length (B",") = 1) by reflexivity. lia. }
  apply Hgen. lia.
Qed.
