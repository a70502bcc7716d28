(** Facts about the template of a subset query. *)
From Verif Require Import GoStr GoStrFacts ModelSq ModelDdl ModelSubset SpecSubset.

Lemma index_none c s : index_byte c s = None <-> ~ In c s.
Proof.
  induction s as [|x s IH]; cbn [index_byte]; [split; [intros _ []|reflexivity]|]. destruct (ceqb_spec x c) as [->|N].
  - split; [discriminate|]. intros H. destruct H. left. reflexivity.
  - destruct (index_byte c s) as [i|].
    + split; [discriminate|]. intros H. exfalso. assert (X : ~ In c s) by (intros I; apply H; right; exact I). apply IH in X. discriminate X.
    + split; [|reflexivity]. intros _ [E|I]; [contradiction|]. apply IH in I; [exact I|reflexivity].
Qed.
Lemma index_app c s t : ~ In c s -> index_byte c (s ++ c :: t) = Some (List.length s).
Proof.
  induction s as [|x s IH]; intros N; cbn [app index_byte].
  - destruct (ceqb_spec c c); [reflexivity|contradiction].
  - destruct (ceqb_spec x c) as [->|_]; [destruct N; left; reflexivity|]. rewrite IH; [reflexivity|]. intros I. apply N. right. exact I.
Qed.
Lemma index_lt c s i : index_byte c s = Some i -> i < List.length s.
Proof.
  revert i. induction s as [|x s IH]; intros i; cbn [index_byte]; [discriminate|]. destruct (ceqb x c); [intros [= <-]; cbn; lia|]. destruct (index_byte c s) as [k|]; [|discriminate].
  intros [= <-]. specialize (IH k eq_refl). cbn. lia.
Qed.
Lemma scan_fuel n : forall f1 f2 str star tbl, List.length str < f1 -> List.length str < f2 -> scan f1 n str star tbl = scan f2 n str star tbl.
Proof.
  induction f1 as [|f1 IH]; intros f2 str star tbl L1 L2; [lia|]. destruct f2 as [|f2]; [lia|]. cbn [scan].
  destruct (index_byte lbrace str) as [i|] eqn:Ei; [|reflexivity]. pose proof (index_lt _ _ _ Ei) as Li. destruct (nth_error str (i + 1)) as [c|] eqn:En; [|reflexivity].
  assert (Ln : i + 1 < List.length str) by (apply nth_error_Some; congruence).
  destruct (ceqb c lbrace); [apply IH; rewrite skipn_length; lia|]. destruct (index_byte rbrace (skipn i str)) as [j|] eqn:Ej; [|reflexivity].
  destruct (beqb _ _); [destruct (positive star)|destruct (positive tbl)]; try reflexivity; apply IH; rewrite !skipn_length; lia.
Qed.
Lemma scan_char n f c str star tbl : c <> lbrace -> scan (S f) n (c :: str) star tbl = scan (S f) n str star tbl.
Proof.
  intros N. cbn [scan index_byte]. destruct (ceqb_spec c lbrace) as [|_]; [contradiction|]. destruct (index_byte lbrace str) as [i|]; reflexivity.
Qed.
Lemma scan_doubled n f str star tbl : scan (S f) n (lbrace :: lbrace :: str) star tbl = scan f n str star tbl.
Proof. reflexivity. Qed.
Lemma scan_text n p : text_ok p -> forall f s star tbl, List.length (p ++ s) < f -> scan f n (p ++ s) star tbl = scan f n s star tbl.
Proof.
  induction 1 as [|c p N H IH|p H IH]; intros f s star tbl L.
  - reflexivity.
  - destruct f as [|f]; [lia|]. cbn [app]. rewrite scan_char by exact N. apply IH. cbn [app List.length] in L. lia.
  - destruct f as [|f]; [lia|]. cbn [app List.length] in L. cbn [app]. rewrite scan_doubled, IH by lia. apply scan_fuel; rewrite app_length in L; lia.
Qed.
Lemma scan_star n f s star tbl : scan (S f) n (B"{*}" ++ s) star tbl = if positive star then Err else scan f n s (Some (n - List.length (B"{*}" ++ s), n - List.length (B"{*}" ++ s) + 3)) tbl.
Proof. cbn [scan app index_byte]. cbn. destruct (positive star); [reflexivity|]. do 3 f_equal. lia. Qed.
Lemma scan_name n f nm s star tbl : name_ok nm -> scan (S f) n (lbrace :: nm ++ rbrace :: s) star tbl =
  if positive tbl then Err else scan f n s star (Some (n - List.length (lbrace :: nm ++ rbrace :: s), n - List.length (lbrace :: nm ++ rbrace :: s) + S (List.length nm) + 1)).
Proof.
  intros (N1 & N2 & N3). cbn [scan index_byte]. change (ceqb lbrace lbrace) with true. cbn [nth_error Nat.add skipn].
  assert (Hd : exists c s', nm ++ rbrace :: s = c :: s' /\ c <> lbrace).
  { destruct nm as [|c nm']; [exists rbrace, s; split; [reflexivity|discriminate]|]. exists c, (nm' ++ rbrace :: s). split; [reflexivity|]. intros ->. exact (N3 nm' eq_refl). }
  destruct Hd as (c & s' & E & Nc). rewrite E. destruct (ceqb_spec c lbrace) as [|_]; [contradiction|]. rewrite <- E.
  assert (Ij : index_byte rbrace (lbrace :: nm ++ rbrace :: s) = Some (S (List.length nm))).
  { change (lbrace :: nm ++ rbrace :: s) with ((lbrace :: nm) ++ rbrace :: s). rewrite index_app; [reflexivity|]. intros [H|H]; [discriminate H|exact (N2 H)]. }
  rewrite Ij.
  assert (Fn : firstn (S (List.length nm) + 1) (lbrace :: nm ++ rbrace :: s) = lbrace :: nm ++ [rbrace]).
  { cbn [Nat.add firstn]. f_equal. replace (List.length nm + 1) with (List.length (nm ++ [rbrace])) by (rewrite app_length; cbn; lia).
    replace (nm ++ rbrace :: s) with ((nm ++ [rbrace]) ++ s) by (rewrite <- app_assoc; reflexivity). rewrite firstn_app, Nat.sub_diag, firstn_all. cbn [firstn]. apply app_nil_r. }
  rewrite Fn. destruct (beqb_spec (lbrace :: nm ++ [rbrace]) (B"{*}")) as [Eq|_].
  - exfalso. apply N1. assert (X : nm ++ [rbrace] = B"*" ++ [rbrace]) by (injection Eq as Eq; exact Eq). apply app_inv_tail in X. exact X.
  - destruct (positive tbl); [reflexivity|]. f_equal.
    cbn [Nat.add skipn]. replace (List.length nm + 1) with (List.length (nm ++ [rbrace])) by (rewrite app_length; cbn; lia).
    replace (nm ++ rbrace :: s) with ((nm ++ [rbrace]) ++ s) by (rewrite <- app_assoc; reflexivity). rewrite skipn_app, Nat.sub_diag, skipn_all. reflexivity.
Qed.
Lemma scan_end n f p star tbl : text_ok p -> List.length p < f -> scan f n p star tbl = Ok (star, tbl).
Proof.
  intros T L. rewrite <- (app_nil_r p). rewrite scan_text by (rewrite ?app_nil_r; assumption). destruct f as [|f]; [lia|]. reflexivity.
Qed.
Lemma slice_mid (a s b : bytes) x y : x = List.length a -> y = x + List.length s -> slice x y (a ++ s ++ b) = Ok s.
Proof.
  intros -> ->. unfold slice. rewrite !app_length. replace ((List.length a <=? List.length a + List.length s) && (List.length a + List.length s <=? List.length a + (List.length s + List.length b))) with true by lia.
  rewrite skipn_app, skipn_all, Nat.sub_diag. cbn [app skipn]. replace (List.length a + List.length s - List.length a) with (List.length s) by lia.
  rewrite firstn_app, Nat.sub_diag, firstn_all. cbn [firstn]. rewrite app_nil_r. reflexivity.
Qed.
(** The template with a star and then a name. *)
Definition template (p m nm r : bytes) : bytes := p ++ B"{*}" ++ m ++ lbrace :: nm ++ rbrace :: r.
Lemma expand_template d cat p m nm r : text_ok p -> text_ok m -> text_ok r -> name_ok nm -> expand d cat (template p m nm r) =
  match find_table cat (named cat nm) with
  | None => Err
  | Some t => match t_pkey t with
              | None => Err
              | Some pk => Ok (t, pk, p ++ join (B", ") (map (fun c => full_name d (t_id t) ++ B"." ++ quote_identifier d c) pk) ++ m ++ full_name d (t_id t) ++ r)
              end
  end.
Proof.
  intros Tp Tm Tr N. unfold expand. set (query := template p m nm r).
  assert (Lq : List.length query = List.length p + 3 + List.length m + 1 + List.length nm + 1 + List.length r).
  { unfold query, template. rewrite !app_length. cbn [List.length]. rewrite app_length. cbn [List.length]. change (List.length (B"{*}")) with 3. lia. }
  assert (E : scan (S (List.length query)) (List.length query) query None None =
     Ok (Some (List.length p, List.length p + 3), Some (List.length p + 3 + List.length m, List.length p + 3 + List.length m + S (List.length nm) + 1))).
  { unfold query at 3, template. rewrite scan_text; [|exact Tp|fold (template p m nm r); fold query; lia]. rewrite scan_star. cbn [positive].
    rewrite (scan_fuel _ (List.length query) (S (List.length query))) by (rewrite app_length; cbn [List.length]; rewrite app_length; cbn [List.length]; lia).
    rewrite scan_text; [|exact Tm|rewrite app_length; cbn [List.length]; rewrite app_length; cbn [List.length]; lia].
    rewrite scan_name by exact N. cbn [positive]. rewrite scan_end; [|exact Tr|lia].
    do 4 f_equal; rewrite ?app_length; cbn [List.length]; rewrite ?app_length; cbn [List.length]; rewrite ?app_length; cbn [List.length]; change (List.length (B"{*}")) with 3; lia. }
  rewrite E. cbn [bindr].
  assert (S1 : slice (List.length p + 3 + List.length m + 1) (List.length p + 3 + List.length m + S (List.length nm) + 1 - 1) query = Ok nm).
  { replace query with ((p ++ B"{*}" ++ m ++ [lbrace]) ++ nm ++ (rbrace :: r)) by (unfold query, template; rewrite <- !app_assoc; reflexivity).
    apply slice_mid; rewrite ?app_length; cbn [List.length]; change (List.length (B"{*}")) with 3; lia. }
  rewrite S1. cbn [bindr]. unfold named. destruct (match cut_byte "." nm with Some (a, b) => (a, b) | None => ([], nm) end) as [schema name].
  destruct (find_table cat (if beqb schema [] then c_cur cat else schema, name)) as [t|]; [|reflexivity]. destruct (t_pkey t) as [pk|]; [|reflexivity].
  assert (S2 : slice 0 (List.length p) query = Ok p) by (exact (slice_mid [] p (B"{*}" ++ m ++ lbrace :: nm ++ rbrace :: r) 0 _ eq_refl eq_refl)).
  assert (S3 : slice (List.length p + 3) (List.length p + 3 + List.length m) query = Ok m).
  { replace query with ((p ++ B"{*}") ++ m ++ (lbrace :: nm ++ rbrace :: r)) by (unfold query, template; rewrite <- !app_assoc; reflexivity).
    apply slice_mid; rewrite ?app_length; cbn [List.length]; change (List.length (B"{*}")) with 3; lia. }
  assert (S4 : slice (List.length p + 3 + List.length m + S (List.length nm) + 1) (List.length query) query = Ok r).
  { replace query with ((p ++ B"{*}" ++ m ++ lbrace :: nm ++ [rbrace]) ++ r ++ []) at 2 by (unfold query, template; rewrite app_nil_r, <- !app_assoc; cbn [app]; rewrite <- !app_assoc; reflexivity).
    apply slice_mid; rewrite ?app_length; cbn [List.length]; rewrite ?app_length; cbn [List.length]; change (List.length (B"{*}")) with 3; lia. }
  rewrite S2, S3, S4. reflexivity.
Qed.
Lemma scan_pieces n : forall ps f s star tbl, (forall p, In p ps -> piece_ok p) -> List.length (flat_map render ps ++ s) < f ->
  scan f n (flat_map render ps ++ s) star tbl = Err \/ exists star' tbl', scan f n (flat_map render ps ++ s) star tbl = scan f n s star' tbl'.
Proof.
  induction ps as [|p ps IH]; intros f s star tbl Hp L; [right; exists star, tbl; reflexivity|]. cbn [flat_map] in *. rewrite <- app_assoc in *.
  assert (Hps : forall p, In p ps -> piece_ok p) by (intros x Ix; apply Hp; right; exact Ix). pose proof (Hp p (or_introl eq_refl)) as Pp. destruct f as [|f]; [lia|].
  assert (Fu : forall star' tbl', List.length (flat_map render ps ++ s) < f -> scan f n (flat_map render ps ++ s) star' tbl' = Err \/ exists star'' tbl'', scan f n (flat_map render ps ++ s) star' tbl' = scan (S f) n s star'' tbl'').
  { intros star' tbl' Lf. destruct (IH f s star' tbl' Hps Lf) as [E|(s1 & t1 & E)]; [left; exact E|]. right. exists s1, t1. rewrite E. apply scan_fuel; rewrite app_length in Lf; lia. }
  destruct p as [t| |nm]; cbn [render piece_ok] in *.
  - rewrite scan_text by (try exact Pp; rewrite app_length in *; lia). apply IH; [exact Hps|]. rewrite app_length in L. lia.
  - rewrite scan_star. destruct (positive star); [left; reflexivity|]. apply Fu. rewrite app_length in L. change (List.length (B"{*}")) with 3 in L. lia.
  - replace ((lbrace :: nm ++ [rbrace]) ++ flat_map render ps ++ s) with (lbrace :: nm ++ rbrace :: (flat_map render ps ++ s)) in * by (cbn [app]; rewrite <- app_assoc; reflexivity).
    rewrite scan_name by exact Pp. destruct (positive tbl); [left; reflexivity|]. apply Fu. cbn [List.length] in L. rewrite app_length in L. cbn [List.length] in L. lia.
Qed.
Lemma scan_unclosed n f s star tbl : s <> [] -> ~ In rbrace s -> (forall s', s <> lbrace :: s') -> scan (S f) n (lbrace :: s) star tbl = Err.
Proof.
  intros N1 N2 N3. cbn [scan index_byte]. change (ceqb lbrace lbrace) with true. cbn [nth_error Nat.add skipn]. destruct s as [|c s]; [contradiction|].
  destruct (ceqb_spec c lbrace) as [->|_]; [destruct (N3 s eq_refl)|]. replace (index_byte rbrace (lbrace :: c :: s)) with (@None nat); [reflexivity|].
  symmetry. apply index_none. intros [H|H]; [discriminate H|exact (N2 H)].
Qed.
Lemma expand_unclosed d cat ps s : (forall p, In p ps -> piece_ok p) -> s <> [] -> ~ In rbrace s -> (forall s', s <> lbrace :: s') -> expand d cat (flat_map render ps ++ lbrace :: s) = Err.
Proof.
  intros Hp N1 N2 N3. unfold expand. set (query := flat_map render ps ++ lbrace :: s).
  destruct (scan_pieces (List.length query) ps (S (List.length query)) (lbrace :: s) None None Hp) as [E|(s1 & t1 & E)]; [fold query; lia| |]; fold query in E; rewrite E; [reflexivity|].
  rewrite scan_unclosed by assumption. reflexivity.
Qed.
(** A second star or name, unless the first is at the beginning. *)
Lemma scan_unique n : forall ps f star tbl, (forall p, In p ps -> piece_ok p) -> List.length (flat_map render ps) < f -> List.length (flat_map render ps) < n ->
  (positive star = true /\ In Star ps) \/ (positive tbl = true /\ exists nm, In (Name nm) ps) -> scan f n (flat_map render ps) star tbl = Err.
Proof.
  intros ps. induction ps as [|p ps IH]; intros f star tbl Hp L Ln H.
  - destruct H as [[_ []]|[_ (nm & [])]].
  - cbn [flat_map] in *. assert (Hps : forall p, In p ps -> piece_ok p) by (intros x Ix; apply Hp; right; exact Ix). pose proof (Hp p (or_introl eq_refl)) as Pp. destruct f as [|f]; [lia|].
    destruct p as [t| |nm]; cbn [render piece_ok] in *.
    + rewrite scan_text by (try exact Pp; lia). rewrite app_length in L, Ln. apply IH; try lia; [exact Hps|]. destruct H as [[A [B0|B0]]|[A (nm & [B0|B0])]]; try discriminate B0; [left; auto|right; split; [exact A|exists nm; exact B0]].
    + rewrite scan_star. destruct (positive star) eqn:Es; [reflexivity|]. rewrite app_length in L, Ln. change (List.length (B"{*}")) with 3 in L, Ln.
      apply IH; try lia; [exact Hps|]. destruct H as [[A _]|[A (nm & [B0|B0])]]; try discriminate; right; split; [exact A|exists nm; exact B0].
    + replace ((lbrace :: nm ++ [rbrace]) ++ flat_map render ps) with (lbrace :: nm ++ rbrace :: flat_map render ps) in * by (cbn [app]; rewrite <- app_assoc; reflexivity).
      rewrite scan_name by exact Pp. destruct (positive tbl) eqn:Et; [reflexivity|]. cbn [List.length] in L, Ln. rewrite app_length in L, Ln. cbn [List.length] in L, Ln.
      apply IH; try lia; [exact Hps|]. destruct H as [[A [B0|B0]]|[A _]]; try discriminate; left; auto.
Qed.
Lemma expand_twice d cat ps1 x ps2 : (forall p, In p (ps1 ++ x :: ps2) -> piece_ok p) -> flat_map render ps1 <> [] ->
  (x = Star /\ In Star ps2) \/ ((exists nm, x = Name nm) /\ exists nm, In (Name nm) ps2) -> expand d cat (flat_map render (ps1 ++ x :: ps2)) = Err.
Proof.
  intros Hp Ne H. unfold expand. set (query := flat_map render (ps1 ++ x :: ps2)). assert (Eq : query = flat_map render ps1 ++ render x ++ flat_map render ps2) by (unfold query; rewrite flat_map_app; reflexivity).
  assert (Lp : 0 < List.length (flat_map render ps1)) by (destruct (flat_map render ps1); [contradiction|cbn; lia]).
  destruct (scan_pieces (List.length query) ps1 (S (List.length query)) (render x ++ flat_map render ps2) None None) as [E|(s1 & t1 & E)].
  - intros p Ip. apply Hp, in_or_app. left. exact Ip.
  - rewrite <- Eq. lia.
  - rewrite <- Eq in E. rewrite E. reflexivity.
  - rewrite <- Eq in E. rewrite E. assert (Lq : List.length query = List.length (flat_map render ps1) + List.length (render x ++ flat_map render ps2)) by (rewrite Eq, app_length; reflexivity).
    assert (Hp2 : forall p, In p ps2 -> piece_ok p) by (intros p Ip; apply Hp, in_or_app; right; right; exact Ip).
    assert (Px : piece_ok x) by (apply Hp, in_or_app; right; left; reflexivity).
    assert (Z : scan (S (List.length query)) (List.length query) (render x ++ flat_map render ps2) s1 t1 = Err); [|rewrite Z; reflexivity].
    destruct H as [[-> H]|[(nm & ->) H]]; cbn [render piece_ok] in *.
    + rewrite scan_star. destruct (positive s1); [reflexivity|]. apply scan_unique; try exact Hp2; rewrite app_length in Lq; change (List.length (B"{*}")) with 3 in Lq; try lia.
      left. split; [|exact H]. destruct (List.length query - List.length (B"{*}" ++ flat_map render ps2)) eqn:Ez; [|reflexivity]. rewrite app_length in Ez. change (List.length (B"{*}")) with 3 in Ez. lia.
    + replace ((lbrace :: nm ++ [rbrace]) ++ flat_map render ps2) with (lbrace :: nm ++ rbrace :: flat_map render ps2) in * by (cbn [app]; rewrite <- app_assoc; reflexivity).
      rewrite scan_name by exact Px. destruct (positive t1); [reflexivity|]. cbn [List.length] in Lq. rewrite app_length in Lq. cbn [List.length] in Lq. apply scan_unique; try exact Hp2; try lia.
      right. split; [|exact H]. cbn [List.length]. rewrite app_length. cbn [List.length]. destruct (List.length query - S (List.length nm + S (List.length (flat_map render ps2)))) eqn:Ez; [lia|reflexivity].
Qed.
