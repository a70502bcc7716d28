(** Proofs about reading table structs: the modifiers written for a column give the column
    and the keys and indexes that stand on it. *)
From Coq Require Import Lia.
From Verif Require Import GoStr GoStrFacts ModelCatalog ModelCache SpecCache CacheFacts CopyFacts ModelDdl DdlFacts
  ModelModifier SpecModifier ModifierFacts ModelDiff ModelDiffSql DiffLookup ModelGoTag ModelStructs ModelParser ParserFacts SpecStructs SpecSame ReadKeys WriteKeys GoText.

Local Arguments PRIMARY_KEY : simpl never.
Local Arguments FOREIGN_KEY : simpl never.
Local Arguments UNIQUE : simpl never.
Local Arguments generate_name : simpl never.
Local Arguments B : simpl never.

(** ** Keys and indexes that can be read *)
Definition key_reads (d : dialect) (cur : bytes) (k : constraint) : Prop :=
  (con_type k = PRIMARY_KEY \/ con_type k = UNIQUE) /\ defers d k \/ fk_reads d cur k.
Definition listable (l : list bytes) : Prop := l <> [] /\ Forall plain_col l /\ plain_value (listed l).
Lemma listed_one : forall l n, listable l -> ~ In ","%char n -> listed l = n -> l = [n].
Proof.
  intros l n (N & P & _) C E. rewrite <- (split_join l N P). fold (listed l). rewrite E. clear - C.
  pose proof (split_byte_join ","%char [n]) as H. cbn [join] in H. apply H; [discriminate|constructor; [exact C|constructor]].
Qed.
Lemma listed_inj : forall a b, listable a -> listable b -> listed a = listed b -> a = b.
Proof. intros a b (Na & Pa & _) (Nb & Pb & _) E. rewrite <- (split_join a Na Pa), <- (split_join b Nb Pb). fold (listed a) (listed b). rewrite E. reflexivity. Qed.

Section Column.
Variables (flt : bytes -> bool) (d : dialect) (cur n : bytes) (T0 : table) (cs0 : list column) (ex0 : list key) (rep0 : list complaint).
Let i := List.length cs0.
Definition during (C : column) (ks : list constraint) (xs : list index) : table := more (with_columns T0 (cs0 ++ [C])) ks xs.
Definition place_key : key := [tb_schema T0; tb_name T0; n].
Record cst (p : parser) (C : column) (ks : list constraint) (xs : list index) (e : bool) : Prop := Cst {
  cs_table : pa_table p = during C ks xs;
  cs_inv : pinv (pa_cache p) (pa_table p);
  cs_at : ca_columns (pa_cache p) place_key = Some i;
  cs_explicit : pa_explicit p = (if e then [place_key] else []) ++ ex0;
  cs_reports : pa_reports p = rep0
}.
Definition run (ms : list modifier) (C : column) (ks : list constraint) (xs : list index) (e : bool)
  (C' : column) (ks' : list constraint) (xs' : list index) (e' : bool) : Prop :=
  forall p, cst p C ks xs e -> exists p', foldr (column_modifier flt d n i) (p, []) ms = Ok (p', []) /\ cst p' C' ks' xs' e'.
Lemma run_nil : forall C ks xs e, run [] C ks xs e C ks xs e.
Proof. intros C ks xs e p H. exists p. split; [reflexivity|exact H]. Qed.
Lemma run_app : forall a b C ks xs e C1 ks1 xs1 e1 C2 ks2 xs2 e2,
  run a C ks xs e C1 ks1 xs1 e1 -> run b C1 ks1 xs1 e1 C2 ks2 xs2 e2 -> run (a ++ b) C ks xs e C2 ks2 xs2 e2.
Proof.
  intros a b C ks xs e C1 ks1 xs1 e1 C2 ks2 xs2 e2 H1 H2 p H. destruct (H1 p H) as (p1 & E1 & S1). destruct (H2 p1 S1) as (p2 & E2 & S2).
  exists p2. rewrite foldr_app, E1. cbn [bindr]. auto.
Qed.
Lemma cst_nth : forall p C ks xs e, cst p C ks xs e -> nth_error (tb_columns (pa_table p)) i = Some C.
Proof. intros p C ks xs e H. rewrite (cs_table _ _ _ _ _ H). cbn. apply nth_last. Qed.
Lemma cst_step : forall p C ks xs e m p' ds, cst p C ks xs e -> column_modifier flt d n i (p, []) m = Ok (p', ds) ->
  pinv (pa_cache p') (pa_table p') /\ ca_columns (pa_cache p') place_key = Some i.
Proof.
  intros p C ks xs e m p' ds H E. pose proof H as [T I A X R].
  pose proof (column_modifier_step flt d n i p [] m C I) as S. rewrite E in S. cbn [outcome2] in S.
  assert (A' : ca_columns (pa_cache p) [tb_schema (pa_table p); tb_name (pa_table p); n] = Some i) by (rewrite T; exact A).
  specialize (S A' (cst_nth _ _ _ _ _ H)). split; [apply S|]. rewrite (s_columns _ _ _ S eq_refl). exact A.
Qed.
(** A modifier that sets something. *)
Lemma run_set : forall m g C ks xs e, (forall p, column_modifier flt d n i (p, []) m = Ok (on_columns i g p, [])) -> run [m] C ks xs e (g C) ks xs e.
Proof.
  intros m g C ks xs e H p S. exists (on_columns i g p). cbn [foldr]. rewrite H. cbn [bindr]. split; [reflexivity|].
  destruct (cst_step _ _ _ _ _ _ _ _ S (H p)) as (I & A). destruct S as [T _ _ X R]. constructor; auto.
  unfold on_columns. cbn [pa_table with_table]. rewrite T. unfold during, more, with_columns. cbn. unfold i. rewrite change_last. reflexivity.
Qed.
Lemma run_when : forall b m g C ks xs e, (forall p, column_modifier flt d n i (p, []) m = Ok (on_columns i g p, [])) ->
  run (when_ b m) C ks xs e (if b then g C else C) ks xs e.
Proof. intros [] m g C ks xs e H; [apply run_set; exact H|apply run_nil]. Qed.
(** The modifier for the type. *)
Lemma run_type : forall ty C C' ks xs, set_type d ty C = Ok C' -> run [raw_modifier "type" ty] C ks xs false C' ks xs true.
Proof.
  intros ty C C' ks xs H p S. pose proof (cst_nth _ _ _ _ _ S) as N.
  assert (E : column_modifier flt d n i (p, []) (raw_modifier "type" ty)
     = Ok (on_columns i (fun _ => C') (Parser (pa_cache p) (pa_table p) (pa_locations p) ([tb_schema (pa_table p); tb_name (pa_table p); n] :: pa_explicit p) (pa_reports p)), [])).
  { unfold column_modifier. change (beqb (m_name _) (B"type")) with true. cbn [excluded excludes_dialect m_dialects raw_modifier none m_raw].
    rewrite N. rewrite H. reflexivity. }
  eexists. cbn [foldr]. rewrite E. cbn [bindr]. split; [reflexivity|].
  destruct (cst_step _ _ _ _ _ _ _ _ S E) as (I & A). destruct S as [T _ _ X R]. constructor; auto.
  - unfold on_columns. cbn [pa_table with_table]. rewrite T. unfold during, more, with_columns. cbn. unfold i. rewrite change_last. reflexivity.
  - cbn [pa_explicit on_columns with_table]. rewrite X, T. reflexivity.
Qed.
(** Modifiers that add keys and indexes. *)
Lemma run_adds : forall m C ks xs e ks' xs',
  (forall p, pinv (pa_cache p) (pa_table p) -> pa_table p = during C ks xs ->
     exists r, column_modifier flt d n i (p, []) m = bindr r (fun p => Ok (p, [])) /\ adds p r ks' xs') ->
  run [m] C ks xs e C (ks ++ ks') (xs ++ xs') e.
Proof.
  intros m C ks xs e ks' xs' H p S. destruct (H p (cs_inv _ _ _ _ _ S) (cs_table _ _ _ _ _ S)) as (r & E & p' & -> & T' & K1 & K2). cbn [bindr] in E.
  exists p'. cbn [foldr]. rewrite E. cbn [bindr]. split; [reflexivity|].
  destruct (cst_step _ _ _ _ _ _ _ _ S E) as (I & A). destruct S as [T _ _ X R]. constructor; auto; try congruence.
  rewrite T', T. apply more_more.
Qed.

(** *** Keys *)
Lemma run_keys : forall (ks : list constraint) C ks0 xs0 e ty, ty = PRIMARY_KEY \/ ty = UNIQUE ->
  Forall (fun k => con_type k = ty /\ defers d k /\ con_columns k = [n] /\ plain_col n) ks ->
  NoDup (map con_name (tb_constraints T0 ++ ks0) ++ map (key_name d T0) ks) ->
  forall ys, run (map parsed (map (fun k => bare (key_full cur k (ys k))) ks)) C ks0 xs0 e C (ks0 ++ map (key_of d cur T0) ks) xs0 e.
Proof.
  intros ks. induction ks as [|k ks IH]; intros C ks0 xs0 e ty Ty H N ys.
  - cbn [map]. rewrite app_nil_r. apply run_nil.
  - inversion H as [|? ? (Hty & Hd & Hc & Pn) H']; subst. cbn [map] in *.
    change (parsed (bare (key_full cur k (ys k))) :: map parsed (map (fun k => bare (key_full cur k (ys k))) ks))
      with ([parsed (bare (key_full cur k (ys k)))] ++ map parsed (map (fun k => bare (key_full cur k (ys k))) ks)).
    eapply run_app; [apply (run_adds _ C ks0 xs0 e [key_of d cur T0 k] [])|].
    + intros p I T. exists (parse_key d [n] p (parsed (Mod [] (if beqb (con_type k) UNIQUE then B"unique" else B"primarykey") [] [] (deferral k)))). split.
      * assert (Em : parsed (bare (key_full cur k (ys k))) = parsed (Mod [] (if beqb (con_type k) UNIQUE then B"unique" else B"primarykey") [] [] (deferral k))).
        { unfold bare, key_full, with_value, value_modifier, is_fk, kind_word. cbn [m_dialects m_name m_raw m_subs]. destruct Ty as [-> | ->]; reflexivity. }
        rewrite Em. unfold column_modifier. destruct Ty as [-> | ->]; reflexivity.
      * assert (Kn : key_name d (pa_table p) k = key_name d T0 k) by (rewrite T; reflexivity).
        assert (Ko : key_of d cur (pa_table p) k = key_of d cur T0 k) by (rewrite T; reflexivity).
        rewrite <- Ko. apply parse_key_reads; auto.
        -- rewrite Hc. discriminate.
        -- rewrite Hc. constructor; [exact Pn|constructor].
        -- split; [constructor|right; discriminate].
        -- rewrite Kn, T. intro X. apply NoDup_remove_2 in N. apply N. apply in_app_iff. left. exact X.
    + rewrite app_nil_r. rewrite (app_assoc ks0 [key_of d cur T0 k] (map (key_of d cur T0) ks) : ks0 ++ key_of d cur T0 k :: _ = _).
      apply (IH C _ _ e (con_type k)); auto. rewrite app_assoc, map_app, <- app_assoc. exact N.
Qed.
Lemma run_references : forall (nest : constraint -> list index) (ks : list constraint) C ks0 xs0 e,
  Forall (fun k => fk_reads d cur k /\ con_columns k = [n] /\ Forall (fun x => index_reads d x /\ ix_columns x = con_columns k) (nest k)) ks ->
  NoDup (map con_name (tb_constraints T0 ++ ks0) ++ map (key_name d T0) ks) ->
  NoDup (map ix_name (tb_indexes T0 ++ xs0) ++ map (index_name T0) (flat_map nest ks)) ->
  run (map parsed (map (fun k => Mod [] (B"references") [] (references_value cur k) (fk_subs k (nest k))) ks)) C ks0 xs0 e
    C (ks0 ++ map (key_of d cur T0) ks) (xs0 ++ map (index_of d T0) (flat_map nest ks)) e.
Proof.
  intros nest ks. induction ks as [|k ks IH]; intros C ks0 xs0 e H N M.
  - cbn [map flat_map]. rewrite !app_nil_r. apply run_nil.
  - inversion H as [|? ? (Hk & Hc & Hx) H']; subst. cbn [map flat_map] in *. set (m := Mod [] (B"references") [] (references_value cur k) (fk_subs k (nest k))).
    change (parsed m :: map parsed (map (fun k => Mod [] (B"references") [] (references_value cur k) (fk_subs k (nest k))) ks))
      with ([parsed m] ++ map parsed (map (fun k => Mod [] (B"references") [] (references_value cur k) (fk_subs k (nest k))) ks)).
    rewrite (map_app (index_name T0)) in M. rewrite (map_app (index_of d T0)). eapply run_app; [apply (run_adds _ C ks0 xs0 e [key_of d cur T0 k] (map (index_of d T0) (nest k)))|].
    + intros p I T. exists (parse_references d n p (parsed m)). split; [reflexivity|].
      assert (Kn : key_name d (pa_table p) k = key_name d T0 k) by (rewrite T; reflexivity).
      assert (Ko : key_of d cur (pa_table p) k = key_of d cur T0 k) by (rewrite T; reflexivity).
      assert (Io : map (index_of d T0) (nest k) = map (index_of d (pa_table p)) (nest k)) by (rewrite T; reflexivity).
      rewrite <- Ko, Io. apply parse_references_reads; auto.
      * rewrite Kn, T. intro X. apply NoDup_remove_2 in N. apply N. apply in_app_iff. left. exact X.
      * replace (map (index_name (pa_table p)) (nest k)) with (map (index_name T0) (nest k)) by (rewrite T; reflexivity). rewrite T.
        cbn [during more with_columns tb_indexes]. rewrite app_assoc in M. clear - M.
        revert M. generalize (map (index_name T0) (flat_map nest ks)). intro l. generalize (map ix_name (tb_indexes T0 ++ xs0) ++ map (index_name T0) (nest k)). intro a.
        induction l as [|x l IH] using rev_ind; [rewrite app_nil_r; auto|]. rewrite app_assoc. intro M. apply IH. apply NoDup_remove_1 in M. rewrite app_nil_r in M. exact M.
    + rewrite (app_assoc ks0 [key_of d cur T0 k] (map (key_of d cur T0) ks) : ks0 ++ key_of d cur T0 k :: _ = _).
      rewrite (app_assoc xs0 (map (index_of d T0) (nest k))).
      apply IH; auto.
      * rewrite app_assoc, map_app, <- app_assoc. exact N.
      * rewrite app_assoc, map_app, <- app_assoc. rewrite map_map. exact M.
Qed.
Lemma run_indexes : forall (l : list index) C ks0 xs0 e,
  Forall (fun x => index_reads d x /\ ix_columns x = [n]) l ->
  NoDup (map ix_name (tb_indexes T0 ++ xs0) ++ map (index_name T0) l) ->
  run (map parsed (map nested l)) C ks0 xs0 e C ks0 (xs0 ++ map (index_of d T0) l) e.
Proof.
  intros l. induction l as [|x l IH]; intros C ks0 xs0 e H N.
  - cbn [map]. rewrite app_nil_r. apply run_nil.
  - inversion H as [|? ? ((Hs & Hn & Hp) & Hc) H']; subst. cbn [map] in *.
    change (parsed (nested x) :: map parsed (map nested l)) with ([parsed (nested x)] ++ map parsed (map nested l)).
    eapply run_app; [apply (run_adds _ C ks0 xs0 e [] [index_of d T0 x])|].
    + intros p I T. exists (parse_index d [n] p (parsed (nested x))). split; [reflexivity|].
      assert (Io : index_of d T0 x = index_of d (pa_table p) x) by (rewrite T; reflexivity). rewrite Io.
      apply parse_index_reads; auto.
      * split; [constructor|right; discriminate].
      * assert (Kn : index_name (pa_table p) x = index_name T0 x) by (rewrite T; reflexivity). rewrite Kn, T.
        intro X. apply NoDup_remove_2 in N. apply N. apply in_app_iff. left. exact X.
    + rewrite app_nil_r. rewrite (app_assoc xs0 [index_of d T0 x] (map (index_of d T0) l) : xs0 ++ index_of d T0 x :: _ = _).
      apply IH; auto. rewrite app_assoc, map_app, <- app_assoc. exact N.
Qed.

End Column.

Definition type_names : list bytes := map (fun x => B"sq." ++ B x)
  ["EnumField"; "ArrayField"; "BooleanField"; "UUIDField"; "BinaryField"; "JSONField"; "NumberField"; "StringField"; "TimeField"; "AnyField"]%string.
Lemma type_named : forall d c ty, get_field_type d c = Ok ty -> In ty type_names.
Proof.
  intros d c ty H. unfold get_field_type in H.
  destruct (col_enum c); [injection H as <-; vm_compute; tauto|].
  destruct (has_suffix _ _); [injection H as <-; vm_compute; tauto|].
  apply bindr_inv in H as (((t & a1) & a2) & _ & H). injection H as <-.
  repeat match goal with |- context [if ?b then _ else _] => destruct b end; vm_compute; tauto.
Qed.
Lemma default_typed : forall d ty, In ty type_names -> exists ty0 len0, field_type d ty = Some (ty0, len0)
  /\ (d = SQLite \/ d = Postgres -> len0 = [])
  /\ (default_type d ty <> [] -> default_type d ty = ty0 \/ default_type d ty = B"TIMESTAMP" /\ d <> Postgres /\ d <> SQLServer)
  /\ (d = SQLite -> equal_fold ty0 (B"INT") = true -> ty0 = B"INT").
Proof.
  intros d ty H. cbn in H. repeat (destruct H as [<-|H]; [destruct d; do 2 eexists; (split; [reflexivity|]); (split; [intros [E|E]; try discriminate E; reflexivity|]);
    (split; [intro N; vm_compute in N |- *; try congruence; try (left; reflexivity); right; repeat split; congruence|intros Q X; try discriminate Q; vm_compute in X |- *; try discriminate X; reflexivity])|]).
  destruct H.
Qed.
Lemma set_type_reads : forall d ty C n a1 a2, normalize_column_type d ty = Ok (n, a1, a2) ->
  (col_length C = [] \/ (may_have_length n -> a1 <> [])) ->
  exists l p s, set_type d ty C = Ok (with_type ty (with_length l (with_precision p (with_scale s C)))).
Proof.
  intros d ty C n a1 a2 N H. unfold set_type. rewrite N. cbn [bindr].
  destruct (one_of n ["VARBINARY"; "BINARY"; "NVARCHAR"; "VARCHAR"; "CHAR"]%string) eqn:O.
  - destruct a1 as [|x a1]; cbn [is_empty negb].
    + destruct H as [H|H]; [|exfalso; apply H; [apply bmem_In; exact O|reflexivity]]. rewrite H. cbn [is_empty negb].
      exists [], [], []. destruct C; cbn in *. subst. reflexivity.
    + exists (x :: a1), [], []. reflexivity.
  - destruct (one_of n ["NUMERIC"]%string); do 3 eexists; reflexivity.
Qed.

(** The type that a column has in the end: an INT that is the primary key of a SQLite table
    becomes an INTEGER, unless it was given. *)
Definition settled (d : dialect) (sole : bool) (ty : bytes) (e : bool) : bytes :=
  if dialect_eqb d SQLite && sole && equal_fold ty (B"INT") && negb e then B"INTEGER" else ty.
Definition retyped (C C1 : column) : Prop := exists ty l p s, C1 = with_type ty (with_length l (with_precision p (with_scale s C))).
Lemma settled_explicit : forall d sole ty, settled d sole ty true = ty.
Proof. intros. unfold settled. rewrite !andb_false_r. reflexivity. Qed.
Lemma empty_typed : forall d c ty, get_field_type d c = Ok ty -> col_enum c = false -> col_type c = [] -> ty = B"sq.AnyField".
Proof. intros d c ty H E T. unfold get_field_type in H. rewrite E, T in H. destruct d; vm_compute in H; injection H as <-; reflexivity. Qed.

Lemma type_run : forall flt d n T0 cs0 ex0 rep0 c ty ty0 len0 C0 pk ks xs, type_fits d c -> get_field_type d c = Ok ty ->
  field_type d ty = Some (ty0, len0) -> col_type C0 = ty0 -> col_length C0 = len0 ->
  (d = SQLite -> is_none pk = false -> col_domain c = [] ->
     col_type c <> B"INT" /\ (equal_fold (col_type c) (B"INTEGER") = true -> col_type c = B"INTEGER")) ->
  exists C1 e, run flt d n T0 cs0 ex0 rep0 (map parsed (type_modifier d ty pk c)) C0 ks xs false C1 ks xs e
    /\ retyped C0 C1 /\ settled d (negb (is_none pk)) (col_type C1) e = type_of c.
Proof.
  intros flt d n T0 cs0 ex0 rep0 c ty ty0 len0 C0 pk ks xs ((nn & a1 & a2 & Nz & Len) & NT & En) G F E1 E2 Pk.
  destruct (default_typed d ty (type_named _ _ _ G)) as (ty0' & len0' & F' & L0 & Dt & It). rewrite F in F'. injection F' as <- <-.
  assert (W : forall w, w = type_of c -> exists C1 e, run flt d n T0 cs0 ex0 rep0 (map parsed [raw_modifier "type" w]) C0 ks xs false C1 ks xs e
    /\ retyped C0 C1 /\ settled d (negb (is_none pk)) (col_type C1) e = type_of c).
  { intros w ->. assert (LL : col_length C0 = [] \/ (may_have_length nn -> a1 <> [])).
    { destruct Len as [X|[X|X]]; [left; rewrite E2; apply L0; auto|left; rewrite E2; apply L0; auto|right; exact X]. }
    destruct (set_type_reads d _ C0 _ _ _ Nz LL) as (l & p & s & St).
    cbn [map]. rewrite parsed_raw. eexists. exists true. split; [apply run_type; exact St|]. split; [repeat eexists|]. rewrite settled_explicit. reflexivity. }
  assert (Keep : settled d (negb (is_none pk)) ty0 false = type_of c -> exists C1 e, run flt d n T0 cs0 ex0 rep0 (map parsed []) C0 ks xs false C1 ks xs e
    /\ retyped C0 C1 /\ settled d (negb (is_none pk)) (col_type C1) e = type_of c).
  { intro S. exists C0, false. split; [apply run_nil|]. split; [|rewrite E1; exact S].
    exists (col_type C0), (col_length C0), (col_precision C0), (col_scale C0). destruct C0; reflexivity. }
  unfold type_modifier. unfold type_of in *. destruct (col_domain c) as [|x dm] eqn:Dm; cbn [is_empty negb].
  - destruct (col_type c) as [|y w] eqn:Ct; cbn [is_empty negb andb].
    + apply Keep. assert (E0 : col_enum c = false) by (destruct (col_enum c); [destruct (En eq_refl) as (_ & X); congruence|reflexivity]).
      pose proof (empty_typed _ _ _ G E0 Ct). subst ty. unfold field_type in F. cbn in F. injection F as <- <-.
      unfold settled. change (equal_fold [] (B"INT")) with false. rewrite andb_false_r. reflexivity.
    + rewrite <- Ct in *. destruct (beqb_spec (col_type c) (default_type d ty)) as [Ed|Nd]; cbn [negb].
      * apply Keep. assert (Q : default_type d ty <> []) by (rewrite <- Ed, Ct; discriminate).
        assert (Q0 : col_type c = ty0).
        { destruct (Dt Q) as [X|(X & X1 & X2)]; [congruence|]. destruct NT as [Y|[Y|Y]]; congruence. }
        unfold settled. destruct (dialect_eqb d SQLite && negb (is_none pk) && equal_fold ty0 (B"INT")) eqn:S; [|rewrite andb_false_l; congruence].
        exfalso. apply andb_true_iff in S as (S & S3). apply andb_true_iff in S as (S1 & S2). apply negb_true_iff in S2.
        assert (d = SQLite) by (destruct d; try discriminate S1; reflexivity).
        destruct (Pk H S2 eq_refl) as (P1 & _). apply P1. rewrite Q0. apply It; assumption.
      * destruct (dialect_eqb d SQLite && negb (is_none pk) && equal_fold (col_type c) (B"INTEGER")) eqn:S; cbn [negb when_]; [|apply W; reflexivity].
        apply Keep. apply andb_true_iff in S as (S & S3). apply andb_true_iff in S as (S1 & S2).
        assert (d = SQLite) by (destruct d; try discriminate S1; reflexivity). subst d. destruct (Pk eq_refl (proj1 (negb_true_iff _) S2) eq_refl) as (_ & P2).
        specialize (P2 S3). assert (E0 : col_enum c = false) by (destruct (col_enum c); [destruct (En eq_refl) as (X & _); congruence|reflexivity]).
        unfold get_field_type in G. rewrite E0, P2 in G. vm_compute in G. injection G as <-. vm_compute in F. injection F as <- <-.
        rewrite P2. unfold settled. rewrite S2. reflexivity.
  - apply W. reflexivity.
Qed.

(** *** The default value *)
Lemma bracketed_spec : forall v, wrapped_in_brackets v = true <-> bracketed v.
Proof. intro v. rewrite wrapped_spec. reflexivity. Qed.
Lemma unbracketed : forall v, ~ bracketed v -> wrapped_in_brackets v = false.
Proof. intros v H. destruct (wrapped_in_brackets v) eqn:E; [|reflexivity]. apply bracketed_spec in E. contradiction. Qed.
Lemma default_reads : forall flt d v, default_fits flt d v -> v <> [] ->
  existsb (ceqb backtick) v = false /\ default_value flt d (unwrap_brackets v) = v.
Proof.
  intros flt d v [->|(Nb & H)] N; [congruence|]. split.
  { destruct (existsb (ceqb backtick) v) eqn:E; [|reflexivity]. apply existsb_exists in E as (x & Hx & E). destruct (ceqb_spec backtick x); [subst; contradiction|discriminate]. }
  assert (U : ~ bracketed v -> unwrap_brackets v = v) by (intro X; unfold unwrap_brackets; rewrite unbracketed by exact X; reflexivity).
  assert (Q : ~ bracketed v /\ is_literal flt v = true /\ (d = SQLServer -> equal_fold v (B"TRUE") = false /\ equal_fold v (B"FALSE") = false)
     \/ (exists e, v = B"(" ++ e ++ B")" /\ e <> [] /\ ~ bracketed e /\ is_literal flt e = false) ->
     d <> Postgres -> default_value flt d (unwrap_brackets v) = v).
  { intros [(Hb & L & Hs)|(e & E & Ne & Hb & L)] Nd.
    - rewrite U by exact Hb. unfold default_value. destruct d; try congruence; rewrite L; cbn [negb]; try reflexivity.
      destruct (Hs eq_refl) as (-> & ->). reflexivity.
    - assert (Eu : unwrap_brackets v = e).
      { unfold unwrap_brackets. rewrite (proj2 (bracketed_spec v)) by (exists e; exact E). rewrite E. change (removelast (e ++ [")"%char]) = e). apply removelast_last. }
      rewrite Eu. assert (Ew : wrap_brackets e = v).
      { unfold wrap_brackets. destruct e as [|x e]; [congruence|]. rewrite unbracketed by exact Hb. symmetry. exact E. }
      unfold default_value. destruct d; try congruence; rewrite L; exact Ew. }
  destruct d; try (apply Q; [exact H|discriminate]). rewrite U by exact H. reflexivity.
Qed.

(** ** All modifiers of a column *)
Record column_read (d : dialect) (collation : bytes) (sole : bool) (c C : column) (e : bool) : Prop := ColumnRead {
  cr_name : col_name C = col_name c;
  cr_type : settled d sole (col_type C) e = type_of c;
  cr_notnull : col_notnull C = col_notnull c;
  cr_default : col_default C = col_default c;
  cr_auto : col_autoincrement C = col_autoincrement c;
  cr_identity : col_identity C = col_identity c;
  cr_onupdate : col_onupdate C = col_onupdate c;
  cr_generated : col_generated C = true <-> col_generated c = true \/ col_expr c <> [];
  cr_collation : col_collation C = col_collation c \/ col_collation c = collation /\ col_collation C = [];
  cr_ignore : col_ignore C = false;
  cr_pkey : col_pkey C = false
}.
Definition column_sound (flt : bytes -> bool) (d : dialect) (sole : bool) (c : column) : Prop :=
  type_fits d c /\ default_fits flt d (col_default c)
  /\ (d = SQLite -> sole = true -> col_domain c = [] ->
      col_type c <> B"INT" /\ (equal_fold (col_type c) (B"INTEGER") = true -> col_type c = B"INTEGER"))
  /\ (col_autoincrement c = true -> d = MySQL \/ d = SQLite /\ type_of c = B"INTEGER")
  /\ (col_identity c = [] \/ d = Postgres /\ (col_identity c = DEFAULT_IDENTITY \/ col_identity c = ALWAYS_IDENTITY)
      \/ d = SQLServer /\ col_identity c = IDENTITY)
  /\ (col_onupdate c = true -> d = MySQL).

Section Modifiers.
Variables (flt : bytes -> bool) (d : dialect) (cur n : bytes) (T0 : table) (cs0 : list column) (ex0 : list key) (rep0 : list complaint).
Notation run := (run flt d n T0 cs0 ex0 rep0).
Lemma run_same : forall ms C ks xs e C1 C2, run ms C ks xs e C1 ks xs e -> C1 = C2 -> run ms C ks xs e C2 ks xs e.
Proof. intros ms C ks xs e C1 C2 H ->. exact H. Qed.
Ltac by_set g := eapply run_same; [apply (run_set flt d n T0 cs0 ex0 rep0 _ g); intro; reflexivity|].
Lemma run_notnull : forall b C ks xs e, col_notnull C = false -> run (map parsed (when_ b (flag "notnull"))) C ks xs e (with_notnull b C) ks xs e.
Proof.
  intros [] C ks xs e H; [by_set (with_notnull true); reflexivity|].
  eapply run_same; [apply run_nil|]. destruct C; cbn in *; subst; reflexivity.
Qed.
Lemma run_generated : forall b C ks xs e, col_generated C = false -> run (map parsed (when_ b (flag "generated"))) C ks xs e (with_generated b C) ks xs e.
Proof.
  intros [] C ks xs e H; [by_set (with_generated true); reflexivity|].
  eapply run_same; [apply run_nil|]. destruct C; cbn in *; subst; reflexivity.
Qed.
Lemma run_onupdate : forall b C ks xs e, col_onupdate C = false -> (b = true -> d = MySQL) ->
  run (map parsed (when_ b (flag "onupdatecurrenttimestamp"))) C ks xs e (with_onupdate b C) ks xs e.
Proof.
  intros [] C ks xs e H M.
  - eapply run_same; [apply (run_set flt d n T0 cs0 ex0 rep0 _ (with_onupdate true)); intro; rewrite (M eq_refl); reflexivity|]. reflexivity.
  - eapply run_same; [apply run_nil|]. destruct C; cbn in *; subst; reflexivity.
Qed.
Lemma run_collate : forall b v C ks xs e, col_collation C = [] ->
  run (map parsed (when_ b (raw_modifier "collate" v))) C ks xs e (with_collation (if b then v else []) C) ks xs e.
Proof.
  intros [] v C ks xs e H.
  - cbn [when_ map]. rewrite parsed_raw. by_set (with_collation v). reflexivity.
  - eapply run_same; [apply run_nil|]. destruct C; cbn in *; subst; reflexivity.
Qed.
Lemma run_default : forall v C ks xs e, col_default C = [] -> default_fits flt d v ->
  run (map parsed (when_ (negb (is_empty v) && negb (existsb (ceqb backtick) v)) (raw_modifier "default" (unwrap_brackets v)))) C ks xs e (with_default v C) ks xs e.
Proof.
  intros v C ks xs e H F. destruct v as [|x v].
  - eapply run_same; [apply run_nil|]. destruct C; cbn in *; subst; reflexivity.
  - destruct (default_reads flt d _ F) as (N & E); [discriminate|]. rewrite N. cbn [is_empty negb andb when_ map]. rewrite parsed_raw.
    by_set (with_default (default_value flt d (unwrap_brackets (x :: v)))). rewrite E. reflexivity.
Qed.
Lemma run_identity : forall c C ks xs e, col_identity C = [] ->
  col_identity c = [] \/ d = Postgres /\ (col_identity c = DEFAULT_IDENTITY \/ col_identity c = ALWAYS_IDENTITY)
    \/ d = SQLServer /\ col_identity c = IDENTITY ->
  run (map parsed (identity_modifier d c)) C ks xs e (with_identity (col_identity c) C) ks xs e.
Proof.
  intros c C ks xs e H F.
  assert (Q : col_identity c = [] -> identity_modifier d c = []) by (intro E; unfold identity_modifier; rewrite E; destruct d; reflexivity).
  destruct F as [E|[(D & [E|E])|(D & E)]].
  - rewrite Q, E by exact E. eapply run_same; [apply run_nil|]. destruct C; cbn in *; subst; reflexivity.
  - assert (Em : identity_modifier d c = [flag "identity"]) by (unfold identity_modifier; rewrite D, E; reflexivity). rewrite Em, E.
    eapply run_same; [apply (run_set flt d n T0 cs0 ex0 rep0 _ (with_identity DEFAULT_IDENTITY)); intro; rewrite D; reflexivity|]. reflexivity.
  - assert (Em : identity_modifier d c = [flag "alwaysidentity"]) by (unfold identity_modifier; rewrite D, E; reflexivity). rewrite Em, E.
    eapply run_same; [apply (run_set flt d n T0 cs0 ex0 rep0 _ (with_identity ALWAYS_IDENTITY)); intro; rewrite D; reflexivity|]. reflexivity.
  - assert (Em : identity_modifier d c = [flag "identity"]) by (unfold identity_modifier; rewrite D, E; reflexivity). rewrite Em, E.
    eapply run_same; [apply (run_set flt d n T0 cs0 ex0 rep0 _ (with_identity IDENTITY)); intro; rewrite D; reflexivity|]. reflexivity.
Qed.
Definition auto_typed (c : column) (ty : bytes) : bytes := if col_autoincrement c && dialect_eqb d SQLite then B"INTEGER" else ty.
Lemma run_auto : forall c C ks xs e, col_autoincrement C = false ->
  (col_autoincrement c = true -> d = MySQL \/ d = SQLite /\ type_of c = B"INTEGER") ->
  run (map parsed (auto_modifier d c)) C ks xs e (with_autoincrement (col_autoincrement c) (with_type (auto_typed c (col_type C)) C)) ks xs e.
Proof.
  intros c C ks xs e H F. destruct (col_autoincrement c) eqn:A.
  - destruct (F eq_refl) as [D|(D & _)].
    + assert (Em : auto_modifier d c = [flag "auto_increment"]) by (unfold auto_modifier; rewrite D, A; reflexivity).
      assert (Et : auto_typed c (col_type C) = col_type C) by (unfold auto_typed; rewrite D, A; reflexivity). rewrite Em, Et.
      eapply run_same; [apply (run_set flt d n T0 cs0 ex0 rep0 _ (with_autoincrement true)); intro; rewrite D; reflexivity|]. destruct C; reflexivity.
    + assert (Em : auto_modifier d c = [flag "autoincrement"]) by (unfold auto_modifier; rewrite D, A; reflexivity).
      assert (Et : auto_typed c (col_type C) = B"INTEGER") by (unfold auto_typed; rewrite D, A; reflexivity). rewrite Em, Et.
      eapply run_same; [apply (run_set flt d n T0 cs0 ex0 rep0 _ (fun c => with_autoincrement true (with_type (B"INTEGER") c))); intro; rewrite D; reflexivity|]. reflexivity.
  - assert (Em : auto_modifier d c = []) by (unfold auto_modifier; rewrite A; reflexivity).
    assert (Et : auto_typed c (col_type C) = col_type C) by (unfold auto_typed; rewrite A; reflexivity). rewrite Em, Et.
    eapply run_same; [apply run_nil|]. destruct C; cbn in *; subst; reflexivity.
Qed.

Variables (ks : list constraint) (xs : list index).
Definition key_sound (k : constraint) : Prop :=
  listable (con_columns k) /\ ((con_type k = PRIMARY_KEY \/ con_type k = UNIQUE) /\ defers d k \/ fk_reads d cur k).
Definition index_whole (x : index) : Prop := index_reads d x /\ listable (ix_columns x).
Hypothesis HK : Forall key_sound ks.
Hypothesis HX : Forall index_whole xs.
Hypothesis Hn : plain_col n.
Definition column_keys : list constraint := own ks PRIMARY_KEY n ++ own ks UNIQUE n ++ own ks FOREIGN_KEY n.
Definition column_indexes : list index := flat_map (nest xs) (own ks FOREIGN_KEY n) ++ own_index ks xs n.
Hypothesis NK : NoDup (map con_name (tb_constraints T0) ++ map (key_name d T0) column_keys).
Hypothesis NX : NoDup (map ix_name (tb_indexes T0) ++ map (index_name T0) column_indexes).

Lemma own_sound : forall ty, Forall (fun k => con_type k = ty /\ con_columns k = [n] /\ key_sound k) (own ks ty n).
Proof.
  intro ty. apply Forall_forall. intros k Hk. apply filter_In in Hk as (I & F). apply keyed_iff in F as (F1 & F2).
  rewrite Forall_forall in HK. specialize (HK k I). split; [exact F1|]. split; [|exact HK].
  apply listed_one; [apply HK|apply Hn|exact F2].
Qed.
Lemma nest_whole : forall k, listable (con_columns k) -> Forall (fun x => index_reads d x /\ ix_columns x = con_columns k) (nest xs k).
Proof.
  intros k L. unfold nest, hits. destruct (is_fk k); [|constructor]. apply Forall_forall. intros x Hx. apply filter_In in Hx as (I & F).
  apply beqb_eq in F. rewrite Forall_forall in HX. destruct (HX x I) as (R & Lx). split; [exact R|]. apply listed_inj; assumption.
Qed.
Lemma own_index_whole : Forall (fun x => index_reads d x /\ ix_columns x = [n]) (own_index ks xs n).
Proof.
  apply Forall_forall. intros x Hx. apply filter_In in Hx as (I & F). apply andb_true_iff in F as (F & _). apply beqb_eq in F.
  rewrite Forall_forall in HX. destruct (HX x I) as (R & Lx). split; [exact R|]. apply listed_one; [exact Lx|apply Hn|exact F].
Qed.
Lemma NoDup_part : forall {A} (a b c : list A), NoDup (a ++ b ++ c) -> NoDup (a ++ b).
Proof.
  intros A a b c. induction c as [|x c IH] using rev_ind; [rewrite app_nil_r; auto|]. rewrite !app_assoc. intro M.
  apply NoDup_remove_1 in M. rewrite app_nil_r, <- app_assoc in M. auto.
Qed.

Lemma column_run : forall collation c ty ty0 len0 C0,
  column_sound flt d (negb (none (own ks PRIMARY_KEY n))) c -> col_name c = n -> get_field_type d c = Ok ty -> field_type d ty = Some (ty0, len0) ->
  (exists b, C0 = with_enum b (with_length len0 (new_column T0 n ty0))) ->
  exists C e, run (map parsed (column_mods cur ks xs d collation ty c)) C0 [] [] false
      C (map (key_of d cur T0) column_keys) (map (index_of d T0) column_indexes) e
    /\ column_read d collation (negb (none (own ks PRIMARY_KEY n))) c C e.
Proof.
  intros collation c ty ty0 len0 C0 (Tf & Df & Pk & Au & Id & Ou) Nc G F (b & E0).
  set (pk := if none (own ks PRIMARY_KEY n) then None else Some 0).
  assert (Epk : negb (is_none pk) = negb (none (own ks PRIMARY_KEY n))) by (unfold pk; destruct (none _); reflexivity).
  destruct (type_run flt d n T0 cs0 ex0 rep0 c ty ty0 len0 C0 pk [] [] Tf G F) as (C1 & e & R1 & (a & l & pr & sc & E1) & S1).
  { subst C0. reflexivity. }
  { subst C0. reflexivity. }
  { intros D P Dm. apply Pk; [exact D| |exact Dm]. rewrite <- Epk, P. reflexivity. }
  rewrite Epk in S1. subst C0.
  set (ty' := col_type C1) in *.
  set (coll := if negb (is_empty (col_collation c)) && negb (beqb (col_collation c) collation) then col_collation c else []).
  set (gen := col_generated c || negb (is_empty (col_expr c))).
  pose (C2 := with_notnull (col_notnull c) C1).
  pose (C3 := with_autoincrement (col_autoincrement c) (with_type (auto_typed c (col_type C2)) C2)).
  pose (C4 := with_identity (col_identity c) C3).
  pose (C5 := with_default (col_default c) C4).
  pose (C6 := with_onupdate (col_onupdate c) C5).
  pose (C7 := with_collation coll C6).
  pose (C8 := with_generated gen C7).
  exists C8, e. split.
  - unfold column_mods. rewrite Nc. fold pk. rewrite !map_app.
    eapply run_app; [exact R1|].
    eapply run_app; [apply run_notnull; rewrite E1; reflexivity|]. fold C2.
    pose proof NK as NK'. unfold column_keys in NK'. rewrite !map_app in NK'.
    eapply run_app; [apply (run_keys flt d cur n T0 cs0 ex0 rep0 (own ks PRIMARY_KEY n) C2 [] [] e PRIMARY_KEY (or_introl eq_refl)) with (ys := nest xs)|].
    { eapply Forall_impl; [|apply own_sound]. intros k (K1 & K2 & K3 & [(_ & K4)|(K4 & _)]); [auto|]. rewrite K1 in K4. discriminate. }
    { rewrite app_nil_r. eapply NoDup_part. exact NK'. }
    eapply run_app; [apply (run_keys flt d cur n T0 cs0 ex0 rep0 (own ks UNIQUE n) C2 _ [] e UNIQUE (or_intror eq_refl)) with (ys := nest xs)|].
    { eapply Forall_impl; [|apply own_sound]. intros k (K1 & K2 & K3 & [(_ & K4)|(K4 & _)]); [auto|]. rewrite K1 in K4. discriminate. }
    { cbn [app]. rewrite map_app, map_map. cbn [con_name key_of].
      rewrite (app_assoc (map con_name (tb_constraints T0))) in NK'. eapply NoDup_part. exact NK'. }
    cbn [app]. 
    pose proof NX as NX'. unfold column_indexes in NX'. rewrite map_app in NX'.
    eapply run_app; [apply (run_references flt d cur n T0 cs0 ex0 rep0 (nest xs) (own ks FOREIGN_KEY n) C2 _ [] e)|].
    { eapply Forall_impl; [|apply own_sound]. intros k (K1 & K2 & K3 & [(K4 & _)|K4]); [rewrite K1 in K4; destruct K4; discriminate|].
      split; [exact K4|]. split; [exact K2|]. apply nest_whole. exact K3. }
    { rewrite !map_app, !map_map, <- !app_assoc. exact NK'. }
    { rewrite app_nil_r. eapply NoDup_part. exact NX'. }
    cbn [app]. rewrite <- app_assoc. rewrite <- !map_app. fold column_keys. rewrite !map_app.
    eapply run_app; [apply (run_auto c C2); [subst C2; rewrite E1; reflexivity|exact Au]|]. fold C3.
    eapply run_app; [apply (run_identity c C3); [subst C3 C2; rewrite E1; reflexivity|exact Id]|]. fold C4.
    eapply run_app; [apply (run_default _ C4); [subst C4 C3 C2; rewrite E1; reflexivity|exact Df]|]. fold C5.
    eapply run_app; [apply (run_onupdate _ C5); [subst C5 C4 C3 C2; rewrite E1; reflexivity|exact Ou]|]. fold C6.
    eapply run_app; [apply (run_collate _ _ C6); subst C6 C5 C4 C3 C2; rewrite E1; reflexivity|]. fold coll. fold C7.
    eapply run_app; [apply (run_indexes flt d n T0 cs0 ex0 rep0 (own_index ks xs n) C7)|].
    { apply own_index_whole. }
    { rewrite map_app, map_map, <- app_assoc. exact NX'. }
    rewrite <- map_app. fold column_indexes. fold gen. apply (run_generated gen C7). subst C7 C6 C5 C4 C3 C2. rewrite E1. reflexivity.
  - subst C8 C7 C6 C5 C4 C3 C2. subst C1. constructor; try reflexivity.
    + cbn. symmetry. exact Nc.
    + cbn [col_type with_generated with_collation with_onupdate with_default with_identity with_autoincrement with_type with_notnull].
      unfold auto_typed. destruct (col_autoincrement c && dialect_eqb d SQLite) eqn:A; [|exact S1].
      apply andb_true_iff in A as (A1 & A2). destruct (Au A1) as [D|(D & ->)]; [rewrite D in A2; discriminate|].
      unfold settled. change (equal_fold (B"INTEGER") (B"INT")) with false. rewrite !andb_false_r. reflexivity.
    + cbn. unfold gen. rewrite orb_true_iff, negb_true_iff. destruct (col_expr c); cbn; intuition congruence.
    + cbn. unfold coll. destruct (col_collation c) as [|y v] eqn:E; [left; reflexivity|]. cbn [is_empty negb andb].
      destruct (beqb_spec (y :: v) collation) as [X|X]; [right; split; [exact X|reflexivity]|left; reflexivity].
Qed.
End Modifiers.

(** ** The field of a column *)
Lemma lower_go : forall n, go_word n -> needs_quoting n = false -> to_lower (go_name n) = n.
Proof.
  intros n ((x & s & -> & _) & _) N. cbn [needs_quoting] in N. apply orb_false_iff in N as (_ & N). apply negb_false_iff in N. revert N.
  generalize (x :: s). clear. intro n. induction n as [|a n IH]; intro N; [reflexivity|]. cbn [forallb] in N. apply andb_true_iff in N as (Na & N).
  specialize (IH N). unfold go_name, to_lower, to_upper, replace_byte in *. cbn [flat_map]. rewrite !map_app, IH. clear - Na.
  destruct a as [[] [] [] [] [] [] [] []]; vm_compute in Na |- *; try discriminate; reflexivity.
Qed.
Lemma go_name_some : forall n, n <> [] -> is_empty (go_name n) = false.
Proof. intros [|x n] H; [congruence|]. unfold go_name, replace_byte, to_upper. cbn [flat_map]. rewrite map_app. destruct (ceqb x SPACE); reflexivity. Qed.

Lemma column_new : forall p n ty, pinv (pa_cache p) (pa_table p) -> ~ In n (map col_name (tb_columns (pa_table p))) ->
  exists c, get_or_create_column (pa_cache p) (pa_table p) n ty
      = Ok (with_columns (pa_table p) (tb_columns (pa_table p) ++ [new_column (pa_table p) n ty]), c, List.length (tb_columns (pa_table p)))
    /\ ca_columns c [tb_schema (pa_table p); tb_name (pa_table p); n] = Some (List.length (tb_columns (pa_table p)))
    /\ pinv c (with_columns (pa_table p) (tb_columns (pa_table p) ++ [new_column (pa_table p) n ty])).
Proof.
  intros p n ty I F. destruct (column_created p n ty I) as (t & c & i & a & E & S & A & _). exists c.
  assert (Q : t = with_columns (pa_table p) (tb_columns (pa_table p) ++ [new_column (pa_table p) n ty]) /\ i = List.length (tb_columns (pa_table p))).
  { revert E. destruct I as ((G & _) & _). unfold get_or_create_column, get_or_create.
    destruct (ca_columns (pa_cache p) _) as [j|] eqn:E.
    - destruct (G _ _ E) as (b & Hb & Nb & _). exfalso. apply F. rewrite <- Nb. apply in_map. eapply nth_error_In. exact Hb.
    - cbn [at_pos bindr]. intro X. injection X as <- _ <-. auto. }
  destruct Q as (-> & ->). split; [exact E|]. split; [exact A|apply (s_inv _ _ _ S)].
Qed.
Lemma column_found : forall c t n ty i a, ca_columns c [tb_schema t; tb_name t; n] = Some i -> nth_error (tb_columns t) i = Some a -> col_ignore a = false ->
  get_or_create_column c t n ty = Ok (with_columns t (tb_columns t), set_columns c (ca_columns c), i).
Proof. intros c t n ty i a E N G. unfold get_or_create_column, get_or_create. rewrite E. cbn [at_pos]. rewrite N, G. reflexivity. Qed.

Lemma field_reads : forall flt d cur ks xs p c ty collation,
  pinv (pa_cache p) (pa_table p) -> go_word (col_name c) -> ~ In (col_name c) (map col_name (tb_columns (pa_table p))) ->
  column_sound flt d (negb (none (own ks PRIMARY_KEY (col_name c)))) c -> get_field_type d c = Ok ty ->
  Forall (key_sound d cur) ks -> Forall (index_whole d) xs ->
  NoDup (map con_name (tb_constraints (pa_table p)) ++ map (key_name d (pa_table p)) (column_keys (col_name c) ks)) ->
  NoDup (map ix_name (tb_indexes (pa_table p)) ++ map (index_name (pa_table p)) (column_indexes (col_name c) ks xs)) ->
  exists p' C e, parse_field flt d p (read_back (field_of cur ks xs d collation ty c)) = Ok p'
    /\ column_read d collation (negb (none (own ks PRIMARY_KEY (col_name c)))) c C e
    /\ pa_table p' = more (with_columns (pa_table p) (tb_columns (pa_table p) ++ [C])) (map (key_of d cur (pa_table p)) (column_keys (col_name c) ks))
         (map (index_of d (pa_table p)) (column_indexes (col_name c) ks xs))
    /\ pinv (pa_cache p') (pa_table p')
    /\ pa_explicit p' = (if e then [[tb_schema (pa_table p); tb_name (pa_table p); col_name c]] else []) ++ pa_explicit p
    /\ pa_reports p' = pa_reports p.
Proof.
  intros flt d cur ks xs p c ty collation I W F S G HK HX NK NX. set (n := col_name c) in *. set (T := pa_table p) in *.
  pose proof (word_plain _ W) as Pn. destruct Pn as (Nn & _). pose proof (word_plain _ W) as Pn.
  destruct (default_typed d ty (type_named _ _ _ G)) as (ty0 & len0 & Ft & _).
  assert (E0 : parse_field flt d p (read_back (field_of cur ks xs d collation ty c))
    = bindr (if is_empty len0 then Ok p
             else bindr (get_or_create_column (pa_cache p) (pa_table p) n ty0) (fun '(t, c, i) => Ok (on_columns i (with_length len0) (with_table t c p))))
        (fun p => parse_column flt d n ty0 p (map parsed (column_mods cur ks xs d collation ty c)))).
  { unfold parse_field, read_back, field_of. cbn [f_name f_type f_tag f_mods]. fold n. rewrite (go_name_some n Nn).
    assert (Q : beqb ty (B"struct{}") = false).
    { pose proof (type_named _ _ _ G) as H. clear - H. cbn in H. repeat (destruct H as [<-|H]; [reflexivity|]). destruct H. }
    rewrite Q, andb_false_r. cbn [andb orb]. rewrite Ft.
    replace (if is_empty (if needs_quoting n then n else []) then to_lower (go_name n) else (if needs_quoting n then n else [])) with n; [reflexivity|].
    destruct (needs_quoting n) eqn:Nq; [destruct n; [congruence|reflexivity]|]. symmetry. apply lower_go; assumption. }
  assert (St : exists p0 b, bindr (if is_empty len0 then Ok p
             else bindr (get_or_create_column (pa_cache p) (pa_table p) n ty0) (fun '(t, c, i) => Ok (on_columns i (with_length len0) (with_table t c p))))
        (fun p => parse_column flt d n ty0 p (map parsed (column_mods cur ks xs d collation ty c)))
      = bindr (foldr (column_modifier flt d n (List.length (tb_columns T))) (p0, []) (map parsed (column_mods cur ks xs d collation ty c))) (fun '(p, _) => Ok p)
      /\ cst n T (tb_columns T) (pa_explicit p) (pa_reports p) p0 (with_enum b (with_length len0 (new_column T n ty0))) [] [] false).
  { destruct (column_new p n ty0 I F) as (ca & Ec & A & I1). fold T in Ec, A, I1.
    set (b := beqb ty0 (B"sq.EnumField")). destruct len0 as [|l len0].
    - cbn [is_empty bindr]. unfold parse_column. fold T. rewrite Ec. cbn [bindr].
      eexists. exists b. split; [reflexivity|]. 
      assert (S1 : step true (with_table (with_columns T (tb_columns T ++ [new_column T n ty0])) ca p)
         (on_columns (List.length (tb_columns T)) (with_enum b) (with_table (with_columns T (tb_columns T ++ [new_column T n ty0])) ca p))).
      { apply step_columns; [exact I1|reflexivity|reflexivity]. }
      constructor; [|apply S1|exact A|reflexivity|reflexivity].
      unfold during. rewrite more_nil. cbn. rewrite change_last. reflexivity.
    - cbn [is_empty]. fold T. rewrite Ec. cbn [bindr].
      set (p1 := on_columns (List.length (tb_columns T)) (with_length (l :: len0)) (with_table (with_columns T (tb_columns T ++ [new_column T n ty0])) ca p)).
      assert (S1 : step true (with_table (with_columns T (tb_columns T ++ [new_column T n ty0])) ca p) p1).
      { apply step_columns; [exact I1|reflexivity|reflexivity]. }
      assert (T1 : pa_table p1 = with_columns T (tb_columns T ++ [with_length (l :: len0) (new_column T n ty0)])) by (cbn; rewrite change_last; reflexivity).
      assert (I2 : pinv (pa_cache p1) (pa_table p1)) by apply S1.
      unfold parse_column. rewrite (column_found (pa_cache p1) (pa_table p1) n ty0 (List.length (tb_columns T)) (with_length (l :: len0) (new_column T n ty0))).
      + cbn [bindr]. eexists. exists b. split; [reflexivity|].
        assert (Es : with_table (with_columns (pa_table p1) (tb_columns (pa_table p1))) (set_columns (pa_cache p1) (ca_columns (pa_cache p1))) p1 = p1).
        { unfold with_table, set_columns, with_columns. destruct p1 as [[] [] ? ? ?]. reflexivity. }
        fold b. rewrite Es.
        assert (S2 : step true p1 (on_columns (List.length (tb_columns T)) (with_enum b) p1)) by (apply step_columns; [exact I2|reflexivity|reflexivity]).
        constructor; [|apply S2|exact A|reflexivity|reflexivity].
        unfold during. rewrite more_nil. unfold on_columns. cbn [pa_table with_table]. rewrite T1. cbn. rewrite change_last. reflexivity.
      + exact A.
      + rewrite T1. cbn. apply nth_last.
      + reflexivity. }
  destruct St as (p0 & b & Ep & Hc). rewrite E0, Ep.
  destruct (column_run flt d cur n T (tb_columns T) (pa_explicit p) (pa_reports p) ks xs HK HX Pn NK NX collation c ty ty0 len0 _ S eq_refl G Ft (ex_intro _ b eq_refl))
    as (C & e & R & Cr).
  destruct (R p0 Hc) as (p' & Ef & [H1 H2 H3 H4 H5]). exists p', C, e. rewrite Ef. cbn [bindr]. repeat split; auto; try apply Cr; try apply H2.
Qed.
