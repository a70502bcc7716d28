(** Postgres: altering a table makes it what the destination says. *)
From Coq Require Import Lia.
From Verif Require Import GoStr GoStrFacts ModelCatalog ModelCache CacheFacts ModelDdl ModelDiff ModelDiffSql SpecDiff DiffLookup DiffFacts DiffSegments
  SpecApply ApplyFacts ApplyNames ApplyAlter ApplyPair ApplyMysql.

Lemma lower_upper : forall s, to_lower (to_upper s) = to_lower s.
Proof.
  intro s. unfold to_lower, to_upper. rewrite map_map. apply map_ext. intros [[] [] [] [] [] [] [] []]; reflexivity.
Qed.

(** ** The statements for one column *)
Section Column.
Context (flt : bytes -> bool) (cat : catalog) (w : qname) (a b : column).
Let n := col_name b.
Let coll := ct_collation cat.
Let da := normalize_column_default Postgres (col_default a).
Let db := normalize_column_default Postgres (col_default b).
Definition type_stmts : list stmt :=
  if teqb (norm Postgres (col_type a)) (norm Postgres (col_type b))
  then if same_collation coll (col_collation a) (col_collation b) then [] else [QSetType w n (col_type b) (Some (col_collation b)) None]
  else [QSetType w n (col_type b) (if negb (is_empty (col_collation b)) && negb (beqb (col_collation b) coll) then Some (col_collation b) else None) None].
Definition default_stmts : list stmt :=
  if negb (is_empty da) && is_empty db then [QDropDefault w n]
  else if (is_empty da && negb (is_empty db)) || (is_literal flt da && is_literal flt db && negb (beqb da db)) then [QSetDefault w n db]
  else [].
Definition needs_check : bool := negb (col_notnull a) && col_notnull b && negb (old cat 12).
Definition null_stmts : list stmt :=
  if col_notnull a && negb (col_notnull b) then [QDropNotNull w n]
  else if negb (col_notnull a) && col_notnull b then if old cat 12 then [QSetNotNull w n] else [QAddCheck w (check_name b) n]
  else [].
Definition identity_stmts : list stmt :=
  if negb (is_empty (col_identity a)) && is_empty (col_identity b) then [QDropIdentity w n]
  else if is_empty (col_identity a) && negb (is_empty (col_identity b)) then [QAddIdentity w n (col_identity b)]
  else [].
Definition column_stmts : list stmt := type_stmts ++ default_stmts ++ null_stmts ++ identity_stmts.
Lemma alter_column_is : (exists x, normalize_column_type Postgres (col_type a) = Ok x) -> (exists x, normalize_column_type Postgres (col_type b) = Ok x) ->
  exists ws, alter_column_postgres flt cat w a b = Ok (column_stmts, ws).
Proof.
  intros (x & X) (y & Y). unfold alter_column_postgres, column_stmts, type_stmts, default_stmts, null_stmts, identity_stmts, norm. rewrite X, Y. cbn [bindr].
  fold n coll da db. destruct (teqb x y); destruct (col_notnull a && negb (col_notnull b)); destruct (negb (col_notnull a) && col_notnull b);
    destruct (old cat 12); cbv beta iota; eexists; reflexivity.
Qed.

(** What they make of the column. *)
Definition new_type (c : dcolumn) : dcolumn :=
  if teqb (norm Postgres (col_type a)) (norm Postgres (col_type b))
  then if same_collation coll (col_collation a) (col_collation b) then c else set_type (col_type b) (col_collation b) None c
  else set_type (col_type b) (if negb (is_empty (col_collation b)) && negb (beqb (col_collation b) coll) then col_collation b else []) None c.
Definition new_default (c : dcolumn) : dcolumn :=
  if negb (is_empty da) && is_empty db then set_default [] c
  else if (is_empty da && negb (is_empty db)) || (is_literal flt da && is_literal flt db && negb (beqb da db)) then set_default db c
  else c.
Definition new_null (c : dcolumn) : dcolumn :=
  if col_notnull a && negb (col_notnull b) then set_notnull false c
  else if negb (col_notnull a) && col_notnull b then if old cat 12 then set_notnull true c else c
  else c.
Definition new_identity (c : dcolumn) : dcolumn :=
  if negb (is_empty (col_identity a)) && is_empty (col_identity b) then set_identity [] c
  else if is_empty (col_identity a) && negb (is_empty (col_identity b)) then set_identity (col_identity b) c
  else c.
Definition new_column : dcolumn := new_identity (new_null (new_default (new_type (stored a)))).

Lemma literal_is : forall s, literal flt s -> is_literal flt s = true.
Proof.
  intros s H. unfold is_literal. destruct H as [(m & ->)|[H|H]].
  - apply orb_true_iff. left. apply orb_true_iff. left. apply andb_true_iff. split.
    + apply Nat.leb_le. rewrite !app_length. cbn. lia.
    + cbn [B app]. unfold last_byte. change ("'"%char :: m ++ ["'"%char]) with (("'"%char :: m) ++ ["'"%char]).
      rewrite rev_app_distr. reflexivity.
  - apply orb_true_iff. left. apply orb_true_iff. right. apply existsb_exists.
    apply in_map_iff in H. destruct H as (z & E & H). exists z. split; [exact H|]. unfold equal_fold. rewrite <- lower_upper, <- E.
    destruct H as [<-|[<-|[<-|[<-|[<-|[<-|[]]]]]]]; vm_compute; reflexivity.
  - rewrite H. apply orb_true_r.
Qed.

Hypothesis V : convertible flt cat a b.
Lemma new_column_alike : (exists x, normalize_column_type Postgres (col_type a) = Ok x) -> (exists x, normalize_column_type Postgres (col_type b) = Ok x) ->
  alike_but Postgres coll new_column b.
Proof.
  intros (x & X) (y & Y). destruct V as (V1 & V2 & V3 & V4 & V5). fold da db in V1, V2.
  assert (T : dc_type new_column = dc_type (new_type (stored a)) /\ dc_collation new_column = dc_collation (new_type (stored a))).
  { unfold new_column, new_identity, new_null, new_default.
    repeat match goal with |- context [if ?c then _ else _] => match c with context [if _ then _ else _] => fail 1 | _ => destruct c end end; split; reflexivity. }
  assert (Dd : dc_default new_column = dc_default (new_default (stored a))).
  { unfold new_column, new_identity, new_null, new_default, new_type.
    destruct (teqb _ _); [destruct (same_collation _ _ _)|];
    repeat match goal with |- context [if ?c then _ else _] => match c with context [if _ then _ else _] => fail 1 | _ => destruct c end end; reflexivity. }
  assert (Di : dc_identity new_column = dc_identity (new_identity (stored a))).
  { unfold new_column, new_identity, new_null, new_default, new_type.
    destruct (teqb _ _); [destruct (same_collation _ _ _)|];
    repeat match goal with |- context [if ?c then _ else _] => match c with context [if _ then _ else _] => fail 1 | _ => destruct c end end; reflexivity. }
  destruct T as (T1 & T2). split; [|split; [|split]].
  - rewrite T1. exists y. split; [|exact Y]. unfold new_type. destruct (teqb _ _) eqn:TE.
    + apply teqb_eq in TE. unfold norm in TE. rewrite X, Y in TE. destruct (same_collation _ _ _); cbn; [rewrite X, TE; reflexivity|exact Y].
    + exact Y.
  - rewrite Dd. unfold new_default. fold db.
    destruct (negb (is_empty da) && is_empty db) eqn:E1.
    { apply andb_true_iff in E1. destruct E1 as (_ & E1). cbn. destruct db; [reflexivity|discriminate]. }
    destruct ((is_empty da && negb (is_empty db)) || (is_literal flt da && is_literal flt db && negb (beqb da db))) eqn:E2; [exact V2|].
    cbn. fold da. apply orb_false_iff in E2. destruct E2 as (E2 & E3).
    destruct V1 as [V1|(_ & [V1|[V1|(V1 & V1')]])].
    + exact V1.
    + rewrite V1 in *. destruct db; [reflexivity|discriminate].
    + rewrite V1 in *. destruct da; [reflexivity|discriminate].
    + rewrite (literal_is _ V1), (literal_is _ V1') in E3. cbn in E3. apply negb_false_iff in E3. apply beqb_eq in E3. exact E3.
  - rewrite Di. unfold new_identity. destruct (col_identity a) eqn:Ia, (col_identity b) eqn:Ib; cbn; rewrite ?Ia; split; congruence.
  - rewrite T2. unfold new_type. destruct (teqb _ _).
    + destruct (same_collation _ _ _) eqn:SC; [|reflexivity]. apply beqb_eq in SC. unfold or_default in SC. cbn.
      destruct (col_collation a), (col_collation b); exact SC.
    + cbn. destruct (col_collation b) as [|z r] eqn:CB; [reflexivity|]. cbn [is_empty negb andb].
      destruct (beqb_spec (z :: r) coll) as [E|]; cbn [negb]; [symmetry; exact E|reflexivity].
Qed.
Lemma new_column_notnull : dc_notnull new_column = if needs_check then false else col_notnull b.
Proof.
  unfold new_column, new_identity, new_null, new_default, new_type, needs_check.
  destruct (teqb _ _); [destruct (same_collation _ _ _)|];
    (destruct (negb (is_empty da) && is_empty db); [|destruct ((is_empty da && negb (is_empty db)) || (is_literal flt da && is_literal flt db && negb (beqb da db)))]);
    (destruct (negb (is_empty (col_identity a)) && is_empty (col_identity b)); [|destruct (is_empty (col_identity a) && negb (is_empty (col_identity b)))]);
    cbn; destruct (col_notnull a) eqn:Na, (col_notnull b), (old cat 12); cbn; rewrite ?Na; reflexivity.
Qed.
End Column.

Lemma put_here : forall {A} (f : bytes -> option A) n o, put f n o n = o.
Proof. intros A f n o. unfold put. rewrite beqb_refl. reflexivity. Qed.
Lemma put_same : forall {A} (f : bytes -> option A) n m, put f n (f n) m = f m.
Proof. intros A f n m. unfold put. destruct (beqb_spec m n) as [->|]; reflexivity. Qed.
Lemma put_twice : forall {A} (f : bytes -> option A) n o o' m, put (put f n o) n o' m = put f n o' m.
Proof. intros A f n o o' m. unfold put. destruct (beqb m n); reflexivity. Qed.
Lemma change_column_shape : forall n f c cols cons ixs dt, shape (put cols n (Some c)) cons ixs dt ->
  shape (put cols n (Some (f c))) cons ixs (change_column n f dt).
Proof.
  intros n f c cols cons ixs dt (S1 & S2 & S3). unfold change_column. rewrite S1, put_here. split; [|split; [exact S2|exact S3]].
  intro m. cbn. unfold put. destruct (beqb_spec m n) as [->|Ne]; [reflexivity|]. rewrite S1. unfold put. destruct (beqb_spec m n); congruence.
Qed.

Section Postgres.
Context (flt : bytes -> bool) (cat : catalog) (cur : bytes) (src dest : list schema).
Let coll := ct_collation cat.
Hypothesis Os : orderly src.
Hypothesis Od : orderly dest.
Hypothesis PS : proper_keys src.
Hypothesis PD : proper_keys dest.
Hypothesis CR : creatable Postgres cur dest.
Hypothesis SO : same_objects Postgres cur src dest.
Hypothesis KT : kept_targets cur src dest.
Hypothesis SEP : separate Postgres src dest.
Hypothesis VV : all_convertible flt cat src dest.
Hypothesis FR : free_checks src dest.
Context (q : qname) (s t : table).
Hypothesis Ls : located src q s.
Hypothesis Lt : located dest q t.
Hypothesis Rs : readable Postgres s.
Hypothesis Rt : readable Postgres t.
Context (w : qname).
Hypothesis W : place cur w = q.
Let lead := leads Postgres cur coll src dest.
Let steady_ := steady Postgres cur src dest.
Let never (a b : constraint) : bool := false.

(** *** One column *)
Lemma column_lead : forall st n f c x dt cols cons ixs,
  (forall x, effect Postgres cur coll x st = change_at x (place cur w) (change_column n f)) ->
  steady_ x -> db_tables x q = Some dt -> shape (put cols n (Some c)) cons ixs dt -> allowed Postgres cur x st ->
  lead [st] q x (shape (put cols n (Some (f c))) cons ixs).
Proof.
  intros st n f c x dt cols cons ixs HE J E SH A. eapply leads_one with (dt' := change_column n f dt); [exact J|exact E|exact A| | |].
  - rewrite HE, W. apply change_at_is. exact E.
  - apply (fine_change _ _ _ _ q dt); [apply J; exact E| |]; intros m k Z; unfold change_column in Z; destruct (dt_columns dt n); auto.
  - apply change_column_shape. exact SH.
Qed.
Lemma at_column : forall x dt n c cols cons ixs (P : dtable -> dcolumn -> Prop), db_tables x q = Some dt -> shape (put cols n (Some c)) cons ixs dt -> P dt c ->
  at_column_of cur x w n P.
Proof.
  intros x dt n c cols cons ixs P E (S1 & _) H. exists dt, c. rewrite W. split; [exact E|]. split; [|exact H]. rewrite S1. apply put_here.
Qed.

Lemma type_lead : forall a b c x dt cols cons ixs, convertible flt cat a b ->
  steady_ x -> db_tables x q = Some dt -> shape (put cols (col_name b) (Some c)) cons ixs dt ->
  lead (type_stmts cat w a b) q x (shape (put cols (col_name b) (Some (new_type cat a b c))) cons ixs).
Proof.
  intros a b c x dt cols cons ixs (_ & _ & V3 & _) J E SH. unfold type_stmts, new_type. destruct (teqb _ _).
  - destruct (same_collation _ _ _) eqn:SC; [eapply leads_nil; eassumption|].
    eapply column_lead; [reflexivity|exact J|exact E|exact SH|]. cbn [allowed]. eapply at_column; [exact E|exact SH|].
    intro Z. injection Z as Z. destruct V3 as [V3|V3]; [|congruence]. unfold same_collation, or_default in SC. fold coll in V3.
    assert (X : or_default (ct_collation cat) (col_collation a) = or_default (ct_collation cat) (col_collation b)).
    { unfold or_default. destruct (col_collation a), (col_collation b); exact V3. }
    unfold or_default in X. rewrite X, beqb_refl in SC. discriminate.
  - set (co := if negb (is_empty (col_collation b)) && negb (beqb (col_collation b) (ct_collation cat)) then Some (col_collation b) else None).
    replace (if negb (is_empty (col_collation b)) && negb (beqb (col_collation b) (ct_collation cat)) then col_collation b else [])
      with (match co with Some z => z | None => [] end) by (unfold co; destruct (negb (is_empty (col_collation b)) && _); reflexivity).
    eapply column_lead; [reflexivity|exact J|exact E|exact SH|]. cbn [allowed]. eapply at_column; [exact E|exact SH|].
    unfold co. clear co. destruct (col_collation b) as [|z r]; cbn [is_empty negb andb]; [intro Z; discriminate Z|]. destruct (beqb (z :: r) _); cbn [negb]; intro Z; discriminate Z.
Qed.
Lemma default_lead : forall a b c x dt cols cons ixs, convertible flt cat a b -> dc_identity c = col_identity a ->
  steady_ x -> db_tables x q = Some dt -> shape (put cols (col_name b) (Some c)) cons ixs dt ->
  lead (default_stmts flt w a b) q x (shape (put cols (col_name b) (Some (new_default flt a b c))) cons ixs).
Proof.
  intros a b c x dt cols cons ixs (V1 & _) Ic J E SH. unfold default_stmts, new_default.
  set (da := normalize_column_default Postgres (col_default a)) in *. set (db := normalize_column_default Postgres (col_default b)) in *.
  assert (X : da <> db -> dc_identity c = []) by (intro N; destruct V1 as [V1|(V1 & _)]; congruence).
  destruct (negb (is_empty da) && is_empty db) eqn:E1.
  - eapply column_lead; [reflexivity|exact J|exact E|exact SH|]. cbn [allowed]. eapply at_column; [exact E|exact SH|]. apply X.
    intro Z. rewrite Z in E1. destruct db; discriminate.
  - destruct ((is_empty da && negb (is_empty db)) || (is_literal flt da && is_literal flt db && negb (beqb da db))) eqn:E2.
    + eapply column_lead; [reflexivity|exact J|exact E|exact SH|]. cbn [allowed]. eapply at_column; [exact E|exact SH|]. apply X.
      intro Z. rewrite Z, beqb_refl in E2. cbn in E2. rewrite andb_false_r, orb_false_r in E2. destruct db; discriminate.
    + eapply leads_nil; eassumption.
Qed.
Lemma identity_lead : forall a b c x dt cols cons ixs, dc_identity c = col_identity a ->
  (col_identity a = [] -> col_identity b <> [] -> dc_notnull c = true /\ dc_default c = []) ->
  steady_ x -> db_tables x q = Some dt -> shape (put cols (col_name b) (Some c)) cons ixs dt ->
  lead (identity_stmts w a b) q x (shape (put cols (col_name b) (Some (new_identity a b c))) cons ixs).
Proof.
  intros a b c x dt cols cons ixs Ic H J E SH. unfold identity_stmts, new_identity.
  destruct (negb (is_empty (col_identity a)) && is_empty (col_identity b)) eqn:E1.
  - eapply column_lead; [reflexivity|exact J|exact E|exact SH|]. cbn [allowed]. eapply at_column; [exact E|exact SH|]. rewrite Ic.
    intro Z. rewrite Z in E1. discriminate.
  - destruct (is_empty (col_identity a) && negb (is_empty (col_identity b))) eqn:E2; [|eapply leads_nil; eassumption].
    apply andb_true_iff in E2. destruct E2 as (E2 & E3).
    assert (Ea : col_identity a = []) by (destruct (col_identity a); [reflexivity|discriminate]).
    assert (Eb : col_identity b <> []) by (destruct (col_identity b); [discriminate|discriminate]).
    eapply column_lead; [reflexivity|exact J|exact E|exact SH|]. cbn [allowed]. eapply at_column; [exact E|exact SH|].
    destruct (H Ea Eb) as (H1 & H2). split; [exact H1|]. split; [congruence|exact H2].
Qed.

Definition check_of (b : column) : constraint := a_check q (check_name b).
Lemma check_name_temp : forall b, In b (tb_columns t) -> check_name b = temp_name t b.
Proof.
  intros b Hb. destruct (CR q t Lt) as (_ & _ & CC & _). destruct (CC b Hb) as (_ & _ & _ & _ & CP). destruct (CP eq_refl) as (CP' & _).
  unfold check_name, temp_name. rewrite CP'. reflexivity.
Qed.
Lemma check_name_inj : forall a b, In a (tb_columns t) -> In b (tb_columns t) -> check_name a = check_name b -> col_name a = col_name b.
Proof.
  intros a b Ha Hb E. rewrite !check_name_temp in E by assumption. unfold temp_name in E. apply app_inv_head in E.
  injection E as E. apply app_inv_tail in E. exact E.
Qed.
Lemma known_check : forall b, In b (tb_columns t) -> known_constraint Postgres src dest q (check_of b).
Proof.
  intros b Hb. right. split; [reflexivity|]. split; [reflexivity|]. exists t, b. split; [exact Lt|]. split; [exact Hb|]. cbn. apply check_name_temp. exact Hb.
Qed.

Definition with_check (a b : column) (cons : bytes -> option constraint) : bytes -> option constraint :=
  if needs_check cat a b then put cons (check_name b) (Some (check_of b)) else cons.
Lemma null_lead : forall a b c x dt cols cons ixs, convertible flt cat a b -> In b (tb_columns t) -> dc_identity c = col_identity a ->
  (forall n k, cons n = Some k -> primary k -> exists k', In k' (tb_constraints t) /\ primary k' /\ con_columns k' = con_columns k) ->
  (needs_check cat a b = true -> cons (check_name b) = None) ->
  steady_ x -> db_tables x q = Some dt -> shape (put cols (col_name b) (Some c)) cons ixs dt ->
  lead (null_stmts cat w a b) q x (shape (put cols (col_name b) (Some (new_null cat a b c))) (with_check a b cons) ixs).
Proof.
  intros a b c x dt cols cons ixs (_ & _ & _ & V4 & _) Hb Ic HK HN J E SH. unfold null_stmts, new_null, with_check, needs_check.
  destruct (col_notnull a) eqn:Na; destruct (col_notnull b) eqn:Nb; cbn [negb andb]; try (eapply leads_nil; eassumption).
  - eapply column_lead; [reflexivity|exact J|exact E|exact SH|]. cbn [allowed]. eapply at_column; [exact E|exact SH|]. split; [rewrite Ic; auto|].
    intros m k Em P Hm. destruct SH as (_ & S2 & _). rewrite S2 in Em. destruct (HK _ _ Em P) as (k' & Hk' & P' & C'). rewrite <- C' in Hm.
    rewrite (proj2 (PD q t Lt) k' b Hk' P' Hb Hm) in Nb. discriminate.
  - destruct (old cat 12) eqn:O12; cbn [negb].
    + eapply column_lead; [reflexivity|exact J|exact E|exact SH|]. cbn [allowed]. eapply at_column; [exact E|exact SH|]. exact I.
    + assert (Nn : dt_constraints dt (check_name b) = None) by (destruct SH as (_ & S2 & _); rewrite S2; apply HN; unfold needs_check; rewrite Na, Nb, O12; reflexivity).
      eapply leads_one with (dt' := put_constraint (check_name b) (Some (check_of b)) dt); [exact J|exact E| | | |].
      * cbn [allowed]. eapply at_column; [exact E|exact SH|]. split; [exact Nn|]. rewrite W.
        apply (fresh_check Postgres cur src dest CR SEP x q dt); try assumption; [reflexivity|]. apply steady_names with (cur := cur). exact J.
      * cbn [effect]. rewrite W. apply change_at_is. exact E.
      * apply (fine_change _ _ _ _ q dt); [apply J; exact E| |]; intros m k Z; cbn in Z; [|auto].
        unfold put in Z. destruct (beqb_spec m (check_name b)) as [->|]; [|auto]. injection Z as <-. right. split; [reflexivity|].
        split; [apply known_check; exact Hb|]. intro F. discriminate F.
      * destruct SH as (S1 & S2 & S3). split; [exact S1|]. split; [|exact S3]. intro m. cbn. unfold put. destruct (beqb m (check_name b)); [reflexivity|apply S2].
Qed.

Lemma one_column_lead : forall a b x dt cols cons ixs, convertible flt cat a b -> In b (tb_columns t) ->
  cols (col_name b) = Some (stored a) ->
  (forall n k, cons n = Some k -> primary k -> exists k', In k' (tb_constraints t) /\ primary k' /\ con_columns k' = con_columns k) ->
  (needs_check cat a b = true -> cons (check_name b) = None) ->
  steady_ x -> db_tables x q = Some dt -> shape cols cons ixs dt ->
  lead (column_stmts flt cat w a b) q x (shape (put cols (col_name b) (Some (new_column flt cat a b))) (with_check a b cons) ixs).
Proof.
  intros a b x dt cols cons ixs V Hb Hc HK HN J E SH. unfold column_stmts.
  assert (SH' : shape (put cols (col_name b) (Some (stored a))) cons ixs dt).
  { eapply shape_ext; [|reflexivity|reflexivity|exact SH]. intro m. rewrite <- Hc, put_same. reflexivity. }
  eapply leads_app; [eapply type_lead; [exact V|exact J|exact E|exact SH']|]. clear x dt J E SH SH'. intros x dt J E SH.
  assert (I1 : dc_identity (new_type cat a b (stored a)) = col_identity a).
  { unfold new_type. destruct (teqb _ _); [destruct (same_collation _ _ _)|]; reflexivity. }
  eapply leads_app; [eapply default_lead; [exact V|exact I1|exact J|exact E|exact SH]|]. clear x dt J E SH. intros x dt J E SH.
  assert (I2 : dc_identity (new_default flt a b (new_type cat a b (stored a))) = col_identity a).
  { rewrite <- I1. unfold new_default. destruct (negb _ && _); [reflexivity|]. destruct (_ || _); reflexivity. }
  eapply leads_app; [eapply null_lead; [exact V|exact Hb|exact I2|exact HK|exact HN|exact J|exact E|exact SH]|]. clear x dt J E SH. intros x dt J E SH.
  eapply identity_lead; [| |exact J|exact E|exact SH].
  - rewrite <- I2. unfold new_null. destruct (col_notnull a), (col_notnull b), (old cat 12); reflexivity.
  - intros Ia Ib. destruct V as (_ & _ & _ & _ & V5). destruct (V5 Ia Ib) as (D1 & D2 & D3 & D4).
    set (c1 := new_type cat a b (stored a)). assert (N1 : dc_notnull c1 = col_notnull a /\ dc_default c1 = col_default a).
    { unfold c1, new_type. destruct (teqb _ _); [destruct (same_collation _ _ _)|]; split; reflexivity. }
    destruct N1 as (N1 & N2). split.
    + assert (N3 : dc_notnull (new_default flt a b c1) = col_notnull a).
      { rewrite <- N1. unfold new_default. destruct (negb _ && _); [reflexivity|]. destruct (_ || _); reflexivity. }
      unfold new_null. rewrite D3. cbn [negb andb]. destruct (col_notnull a) eqn:Na; cbn [negb andb]; [exact N3|].
      destruct D4 as [D4|D4]; [discriminate|]. unfold old. rewrite D4. reflexivity.
    + assert (Z : dc_default (new_null cat a b (new_default flt a b c1)) = dc_default (new_default flt a b c1)).
      { unfold new_null. destruct (col_notnull a), (col_notnull b), (old cat 12); reflexivity. }
      rewrite Z. unfold new_default. rewrite D1. change (normalize_column_default Postgres []) with (@nil ascii). cbn [is_empty negb].
      destruct (normalize_column_default Postgres (col_default a)) as [|z r] eqn:Ea; [|reflexivity]. cbn [is_empty negb andb orb beqb].
      rewrite andb_false_r, N2. apply D2. reflexivity.
Qed.

(** *** All columns *)
Let L := altered Postgres coll s t.
Let nm (p : column * column) : bytes := col_name (snd p).
Let needs (p : column * column) : bool := needs_check cat (fst p) (snd p).
Let chk (p : column * column) : bytes := check_name (snd p).
Let start := both_cols Postgres coll (fun a _ => stored a) s t.
Let kept := left_cons never s t.
Let newc (p : column * column) : option dcolumn := Some (new_column flt cat (fst p) (snd p)).
Let check (p : column * column) : option constraint := Some (check_of (snd p)).
Lemma never_spec : forall a b, In a (tb_constraints s) -> In b (tb_constraints t) -> con_name a = con_name b ->
  (never a b = false -> con_columns a = con_columns b) /\ (never a b = true -> primary b /\ con_columns a <> con_columns b).
Proof.
  intros a b Ha Hb E. split; [intros _|discriminate]. destruct (proj1 (SO q s t Ls Lt) a b Ha Hb E) as (_ & [C|(C & _)] & _); [exact C|discriminate].
Qed.
Lemma altered_in : forall a b, In (a, b) L <-> In b (tb_columns t) /\ called col_name (tb_columns s) (col_name b) = Some a /\ differs Postgres coll a b = true.
Proof. intros a b. unfold L, altered. rewrite filter_In, (pairs_cols_in src dest q s t a b Os Od Ls Lt). tauto. Qed.
Lemma altered_nodup : NoDup (map nm L).
Proof. unfold L, altered. apply NoDup_filter_map. apply both_nodup. exact (orderly_columns _ Od _ _ Lt). Qed.
Lemma checks_nodup : NoDup (map chk (filter needs L)).
Proof.
  pose proof (NoDup_filter_map nm needs L altered_nodup) as N.
  assert (H : forall p, In p (filter needs L) -> In (snd p) (tb_columns t)).
  { intros (a & b) Hp. apply filter_In in Hp. apply altered_in with (a := a). apply Hp. }
  induction (filter needs L) as [|p l IH]; [constructor|]. cbn [map] in *. inversion N as [|? ? N1 N2]; subst. constructor.
  - intro Z. apply N1. apply in_map_iff in Z. destruct Z as (p' & E & Z). apply in_map_iff. exists p'. split; [|exact Z].
    apply check_name_inj; [apply H; right; exact Z|apply H; left; reflexivity|exact E].
  - apply IH; [exact N2|]. intros p' Hp'. apply H. right. exact Hp'.
Qed.
Lemma kept_no_check : forall b, In b (tb_columns t) -> kept (check_name b) = None.
Proof.
  intros b Hb. destruct (kept (check_name b)) as [k|] eqn:E; [|reflexivity]. exfalso. destruct (left_cons_spec Postgres cur src dest q s t Ls Lt SO never never_spec _ _ E) as (Hk & En & _).
  apply (FR q s t b k Ls Lt Hb Hk). rewrite En. apply check_name_temp. exact Hb.
Qed.
Lemma columns_lead : forall x dt ixs, steady_ x -> db_tables x q = Some dt -> shape start kept ixs dt ->
  lead (flat_map (fun p => column_stmts flt cat w (fst p) (snd p)) L) q x
    (shape (updated nm L newc [] start) (updated chk (filter needs L) check [] kept) ixs).
Proof.
  intros x dt ixs J E SH.
  pose (Q l dt := rest nm L l /\ shape (updated nm L newc l start) (updated chk (filter needs L) check (filter needs l) kept) ixs dt).
  assert (G : lead (flat_map (fun p => column_stmts flt cat w (fst p) (snd p)) L) q x (Q [])).
  { eapply leads_loop; [|exact J|exact E|].
    - clear x dt J E SH. intros p l x dt J E (R & SH). destruct (rest_tail _ _ _ _ R) as (Hp & R').
      destruct p as (a & b). pose proof (proj1 (altered_in a b) Hp) as (Hb & Ca & Df). pose proof (called_some _ _ _ _ Ca) as (Ha & En). cbn [fst snd].
      eapply leads_imp; [eapply one_column_lead; [|exact Hb| | | |exact J|exact E|exact SH]|].
      + apply (VV q s t a b Ls Lt Ha Hb En).
      + change (col_name b) with (nm (a, b)). rewrite updated_here. unfold start, both_cols, nm. cbn [snd].
        rewrite (called_in _ _ _ (orderly_columns _ Od _ _ Lt) Hb), Ca. reflexivity.
      + intros n k Z P. apply (left_primary Postgres cur src dest q s t Ls Lt SO never never_spec n k); [|exact P].
        unfold updated in Z. destruct (called chk (filter needs L) n) as [p|]; [|exact Z]. destruct (bmem n _); [exact Z|].
        injection Z as <-. unfold primary in P. cbn in P. discriminate P.
      + intro Nd. cbn [filter]. change (needs (a, b)) with (needs_check cat a b). rewrite Nd. change (check_name b) with (chk (a, b)). rewrite updated_here.
        apply kept_no_check. exact Hb.
      + intros dt1 _ S1. split; [exact R'|]. eapply shape_ext; [| |reflexivity|exact S1].
        * intro n. exact (updated_step nm L newc (a, b) l start n altered_nodup Hp (proj2 R)).
        * intro n. unfold with_check. cbn [filter]. change (needs (a, b)) with (needs_check cat a b). destruct (needs_check cat a b) eqn:Nd.
          -- change (put _ (check_name b) (Some (check_of b)) n)
               with (put (updated chk (filter needs L) check ((a, b) :: filter needs l) kept) (chk (a, b)) (check (a, b)) n).
             apply updated_step; [exact checks_nodup| |].
             ++ apply filter_In. split; [exact Hp|exact Nd].
             ++ destruct R as (R1 & R2). pose proof checks_nodup as N.
                assert (X : map chk ((a, b) :: filter needs l) = map chk (filter needs ((a, b) :: l))) by (cbn [filter]; change (needs (a, b)) with (needs_check cat a b); rewrite Nd; reflexivity).
                rewrite X. clear X. pose proof (NoDup_filter_map nm needs _ R2) as N2.
                assert (H : forall p, In p (filter needs ((a, b) :: l)) -> In (snd p) (tb_columns t)).
                { intros (a' & b') Z. apply filter_In in Z. apply altered_in with (a := a'). apply R1. apply Z. }
                clear - N2 H Lt CR. induction (filter needs ((a, b) :: l)) as [|p l' IH]; [constructor|]. cbn [map] in *. inversion N2 as [|? ? N3 N4]; subst. constructor.
                ** intro Z. apply N3. apply in_map_iff in Z. destruct Z as (p' & E & Z). apply in_map_iff. exists p'. split; [|exact Z].
                   apply check_name_inj; [apply H; right; exact Z|apply H; left; reflexivity|exact E].
                ** apply IH; [exact N4|]. intros p' Hp'. apply H. right. exact Hp'.
          -- reflexivity.
    - split; [apply rest_start; exact altered_nodup|]. eapply shape_ext; [| |reflexivity|exact SH]; intro n; symmetry; apply updated_start. }
  eapply leads_imp; [exact G|]. intros dt' _ (_ & H). exact H.
Qed.

(** *** Constraints that become deferrable *)
Lemma flags_lead : forall (CC : list (constraint * constraint)) x dt cols cons ixs,
  NoDup (map (fun p => con_name (snd p)) CC) ->
  (forall a b, In (a, b) CC -> cons (con_name b) = Some a /\ foreign a /\ (con_deferred b = true -> con_deferrable b = true)) ->
  steady_ x -> db_tables x q = Some dt -> shape cols cons ixs dt ->
  lead (map (fun p => QAlterConstraint w (snd p)) CC) q x
    (shape cols (updated (fun p => con_name (snd p)) CC (fun p => Some (with_flags (con_deferrable (snd p)) (con_deferred (snd p)) (fst p))) [] cons) ixs).
Proof.
  intros CC x dt cols cons ixs N HC J E SH. set (cn := fun p : constraint * constraint => con_name (snd p)) in *.
  set (g := fun p : constraint * constraint => Some (with_flags (con_deferrable (snd p)) (con_deferred (snd p)) (fst p))).
  pose (Q l dt := rest cn CC l /\ shape cols (updated cn CC g l cons) ixs dt).
  assert (G : lead (map (fun p => QAlterConstraint w (snd p)) CC) q x (Q [])).
  { eapply leads_map; [|exact J|exact E|].
    - clear x dt J E SH. intros (a & b) l x dt J E (R & S1 & S2 & S3). destruct (rest_tail _ _ _ _ R) as (Hp & R').
      destruct (HC a b Hp) as (Ca & Fa & Db). cbn [snd].
      assert (Ck : dt_constraints dt (con_name b) = Some a).
      { rewrite S2. change (con_name b) with (cn (a, b)). rewrite updated_here. exact Ca. }
      destruct (J _ _ E) as ((N1 & N2 & N3) & KK). destruct (N2 _ _ Ck) as (En & Kn).
      eapply leads_one with (dt' := put_constraint (con_name b) (g (a, b)) dt); [exact J|exact E| | | |].
      + cbn [allowed]. exists dt. rewrite W. split; [exact E|]. split; [exact Db|]. exists a. auto.
      + cbn [effect]. rewrite W. rewrite (change_at_is _ _ _ _ E), Ck. reflexivity.
      + apply (fine_change _ _ _ _ q dt); [apply J; exact E| |]; intros n k Z; cbn in Z; [|auto].
        unfold put in Z. destruct (beqb_spec n (con_name b)) as [->|]; [|auto]. injection Z as <-. right. split; [exact En|]. split.
        * exact Kn.
        * intros _. exact (KK _ _ Ck Fa).
      + split; [exact R'|]. split; [exact S1|]. split; [|exact S3].
        intro n. cbn [put_constraint dt_constraints]. rewrite <- (updated_step cn CC g (a, b) l cons n N Hp (proj2 R)).
        unfold put. destruct (beqb n _); [reflexivity|]. apply S2.
    - split; [apply rest_start; exact N|]. eapply shape_ext; [reflexivity| |reflexivity|exact SH]; intro n; symmetry; apply updated_start. }
  eapply leads_imp; [exact G|]. intros dt' _ (_ & H). exact H.
Qed.

(** *** Checks that are replaced by NOT NULL *)
Lemma validate_lead : forall (V : list column) x dt cols cons ixs,
  NoDup (map col_name V) -> NoDup (map check_name V) ->
  (forall c, In c V -> cols (col_name c) <> None /\ cons (check_name c) <> None) ->
  steady_ x -> db_tables x q = Some dt -> shape cols cons ixs dt ->
  lead (flat_map (fun c => [QValidate w (check_name c); QSetNotNull w (col_name c); QDropCheck w (check_name c)]) V) q x
    (shape (updated col_name V (fun c => option_map (set_notnull true) (cols (col_name c))) [] cols) (updated check_name V (fun _ => None) [] cons) ixs).
Proof.
  intros V x dt cols cons ixs N1 N2 HV J E SH. set (f := fun c => [QValidate w (check_name c); QSetNotNull w (col_name c); QDropCheck w (check_name c)]).
  set (g := fun c => option_map (set_notnull true) (cols (col_name c))).
  pose (Q l dt := rest col_name V l /\ rest check_name V l /\ shape (updated col_name V g l cols) (updated check_name V (fun _ => None) l cons) ixs dt).
  assert (G : lead (flat_map f V) q x (Q [])).
  { eapply leads_loop; [|exact J|exact E|].
    - clear x dt J E SH. intros c l x dt J E (R & R2 & SH). destruct (rest_tail _ _ _ _ R) as (Hc & R'). destruct (rest_tail _ _ _ _ R2) as (_ & R2').
      destruct (HV c Hc) as (V1 & V2). destruct (cols (col_name c)) as [k|] eqn:Ec; [|congruence].
      unfold f. change ([QValidate w (check_name c); QSetNotNull w (col_name c); QDropCheck w (check_name c)])
        with ([QValidate w (check_name c)] ++ [QSetNotNull w (col_name c)] ++ [QDropCheck w (check_name c)]).
      eapply leads_app with (P := shape (put (updated col_name V g (c :: l) cols) (col_name c) (Some k)) (updated check_name V (fun _ => None) (c :: l) cons) ixs).
      + split.
        * split; [|exact I]. cbn [allowed]. exists dt. rewrite W. split; [exact E|]. destruct SH as (_ & S2 & _). rewrite S2, updated_here. exact V2.
        * exists dt. split; [exact E|]. split; [apply elsewhere_refl|]. split; [exact J|]. eapply shape_ext; [|reflexivity|reflexivity|exact SH].
          intro n. unfold put. destruct (beqb_spec n (col_name c)) as [->|]; [|reflexivity]. rewrite updated_here. exact Ec.
      + clear x dt J E SH. intros x dt J E SH. eapply leads_app.
        * eapply column_lead; [reflexivity|exact J|exact E|exact SH|]. cbn [allowed]. eapply at_column; [exact E|exact SH|]. exact I.
        * clear x dt J E SH. intros x dt J E SH.
          eapply leads_one with (dt' := put_constraint (check_name c) None dt); [exact J|exact E| | | |].
          -- cbn [allowed]. exists dt. rewrite W. split; [exact E|]. destruct SH as (_ & S2 & _). rewrite S2, updated_here. exact V2.
          -- cbn [effect]. rewrite W. apply change_at_is. exact E.
          -- apply (fine_change _ _ _ _ q dt); [apply J; exact E| |]; intros n z Z; cbn in Z; [|auto].
             unfold put in Z. destruct (beqb n (check_name c)); [discriminate|auto].
          -- split; [exact R'|]. split; [exact R2'|]. destruct SH as (S1 & S2 & S3). split; [|split; [|exact S3]]; intro n; cbn [put_constraint dt_columns dt_constraints].
             ++ rewrite S1. rewrite <- (updated_step col_name V g c l cols n N1 Hc (proj2 R)). replace (g c) with (Some (set_notnull true k)) by (unfold g; rewrite Ec; reflexivity). reflexivity.
             ++ rewrite <- (updated_step check_name V (fun _ => None) c l cons n N2 Hc (proj2 R2)). unfold put. destruct (beqb n (check_name c)); [reflexivity|]. apply S2.
    - split; [apply rest_start; exact N1|]. split; [apply rest_start; exact N2|].
      eapply shape_ext; [| |reflexivity|exact SH]; intro n; symmetry; apply updated_start. }
  eapply leads_imp; [exact G|]. intros dt' _ (_ & _ & H). exact H.
Qed.

(** *** The columns and constraints at the end *)
Let V := validated cat L.
Lemma validated_is : V = map snd (filter needs L).
Proof.
  unfold V, validated. f_equal. apply filter_ext. intros (a & b). reflexivity.
Qed.
Lemma validated_in : forall b, In b V <-> exists a, In (a, b) L /\ needs_check cat a b = true.
Proof.
  intro b. rewrite validated_is, in_map_iff. split.
  - intros ((a & b') & <- & H). apply filter_In in H. exists a. exact H.
  - intros (a & H). exists (a, b). split; [reflexivity|]. apply filter_In. exact H.
Qed.
Lemma validated_nodup : NoDup (map col_name V) /\ NoDup (map check_name V).
Proof.
  rewrite validated_is, !map_map. split; [exact (NoDup_filter_map nm needs L altered_nodup)|exact checks_nodup].
Qed.
Let added := filter is_key (only_cons t s).
Lemma added_in : forall b, In b added <-> In b (tb_constraints t) /\ adds s never b = true.
Proof.
  intro b. unfold added. rewrite filter_In, (only_cons_in dest src q t s b Od Os Lt Ls). unfold adds.
  destruct (called con_name (tb_constraints s) (con_name b)); [|tauto]. split; [intros ((_ & Z) & _); discriminate|intros (_ & Z); discriminate].
Qed.
Let cols1 := updated nm L newc [] start.
Let cols2 := updated col_name V (fun c => option_map (set_notnull true) (cols1 (col_name c))) [] cols1.
Lemma cols1_at : forall n, cols1 n = both_cols Postgres coll (fun a b => if differs Postgres coll a b then new_column flt cat a b else stored a) s t n.
Proof.
  intro n. unfold cols1. rewrite updated_end. unfold start, both_cols. destruct (called nm L n) as [(a & b)|] eqn:E.
  - apply called_some in E. destruct E as (Hp & En). apply altered_in in Hp. destruct Hp as (H1 & H2 & H3). unfold nm in En. cbn [snd] in En. subst n.
    rewrite (called_in _ _ _ (orderly_columns _ Od _ _ Lt) H1), H2, H3. reflexivity.
  - destruct (called col_name (tb_columns t) n) as [b|] eqn:E1; [|reflexivity]. destruct (called col_name (tb_columns s) n) as [a|] eqn:E2; [|reflexivity].
    destruct (differs Postgres coll a b) eqn:E3; [|reflexivity]. exfalso. apply called_some in E1. destruct E1 as (E1 & En).
    apply (proj1 (called_none _ _ _) E (a, b)); [|exact En]. apply altered_in. rewrite En. auto.
Qed.
Lemma cols2_exist : forall n, in_columns t n -> cols2 n <> None.
Proof.
  intros n Hn. pose proof (both_cols_exist Postgres coll s t (fun a b => if differs Postgres coll a b then new_column flt cat a b else stored a) n Hn) as X.
  rewrite <- cols1_at in X. unfold cols2. rewrite updated_end. destruct (called col_name V n) as [c|] eqn:E; [|exact X].
  apply called_some in E. destruct E as (_ & E). rewrite E. destruct (cols1 n); [discriminate|congruence].
Qed.
Lemma cols2_alike : forall n b, called col_name (tb_columns t) n = Some b ->
  exists a, not_null (forced added [] n) (cols2 n) = Some a /\ alike Postgres coll a b.
Proof.
  intros n b E. pose proof (called_some _ _ _ _ E) as (Hb & En).
  destruct (CR q t Lt) as (_ & _ & CC & _). destruct (CC b Hb) as (_ & CD & _ & CP & _).
  assert (F : forced added [] n = true -> col_notnull b = true).
  { intro Z. apply existsb_exists in Z. destruct Z as (k & Hk & Z). cbn [map] in Z. rewrite !andb_true_iff in Z. destruct Z as ((Z1 & _) & Z2).
    apply bmem_In in Z2. apply added_in in Hk. apply (proj2 (PD q t Lt) k b); [apply Hk|apply beqb_eq; exact Z1|exact Hb|]. rewrite En. exact Z2. }
  assert (G : forall c, alike_but Postgres coll c b -> dc_notnull c = col_notnull b \/ forced added [] n = true ->
    exists a, not_null (forced added [] n) (Some c) = Some a /\ alike Postgres coll a b).
  { intros c A H. destruct (forced added [] n) eqn:Z; cbn [not_null option_map].
    - exists (set_notnull true c). split; [reflexivity|]. apply alike_all; [apply alike_notnull; exact A|]. cbn. symmetry. apply F. reflexivity.
    - exists c. split; [reflexivity|]. apply alike_all; [exact A|]. destruct H as [H|H]; [exact H|discriminate]. }
  assert (H1 : cols1 n = Some match called col_name (tb_columns s) n with Some a => if differs Postgres coll a b then new_column flt cat a b else stored a
                              | None => written Postgres coll b end).
  { rewrite cols1_at. unfold both_cols. rewrite E. reflexivity. }
  unfold cols2. rewrite updated_end. destruct (called col_name V n) as [c|] eqn:EV.
  - apply called_some in EV. destruct EV as (Hc & Ec). assert (c = b) by (exact (NoDup_map_inj_on _ _ c b (orderly_columns _ Od _ _ Lt)
      ltac:(apply validated_in in Hc; destruct Hc as (a & Hc & _); apply altered_in in Hc; apply Hc) Hb (eq_trans Ec (eq_sym En)))). subst c.
    apply validated_in in Hc. destruct Hc as (a & Hab & Nd). pose proof (proj1 (altered_in a b) Hab) as (_ & Ca & Df). rewrite Ec, H1.
    rewrite <- En, Ca, Df. cbn [option_map]. rewrite En. apply called_some in Ca. destruct Ca as (Ha & Ena).
    apply G.
    + apply alike_notnull. apply new_column_alike; [exact (VV q s t a b Ls Lt Ha Hb Ena)|apply Rs; exact Ha|apply Rt; exact Hb].
    + left. cbn. unfold needs_check in Nd. rewrite !andb_true_iff in Nd. symmetry. apply Nd.
  - rewrite H1. destruct (called col_name (tb_columns s) n) as [a|] eqn:Ea.
    2: { apply G; [|left; reflexivity]. apply alike_written; [apply Rt; exact Hb|exact CD|auto]. }
    pose proof (called_some _ _ _ _ Ea) as (Ha & En'). destruct (differs Postgres coll a b) eqn:D.
    + apply G.
      * apply new_column_alike; [apply (VV q s t a b Ls Lt Ha Hb); congruence|apply Rs; exact Ha|apply Rt; exact Hb].
      * left. rewrite new_column_notnull. destruct (needs_check cat a b) eqn:Nd; [|reflexivity]. exfalso.
        apply (proj1 (called_none _ _ _) EV b); [|exact En]. apply validated_in. exists a. split; [|exact Nd]. apply altered_in. rewrite En. auto.
    + apply G; [apply alike_stored; [apply Rs; exact Ha|apply Rt; exact Hb|exact D]|].
      cbn [stored dc_notnull]. destruct (Bool.bool_dec (col_notnull a) (col_notnull b)) as [X|X]; [left; exact X|right].
      unfold differs in D. rewrite !orb_false_iff in D. destruct D as (((_ & D) & _) & _).
      assert (Pb : col_pkey b = true).
      { destruct (col_pkey b); [reflexivity|]. rewrite andb_true_r in D. destruct (col_notnull a), (col_notnull b); cbn in D; congruence. }
      destruct (CP Pb) as (k & Hk & Pk & Ck).
      assert (Nb : col_notnull b = true) by exact (proj2 (PD q t Lt) k b Hk Pk Hb Ck).
      apply existsb_exists. exists k. split.
      * apply added_in. split; [exact Hk|]. unfold adds. destruct (called con_name (tb_constraints s) (con_name k)) as [k'|] eqn:Ek.
        -- exfalso. pose proof (called_some _ _ _ _ Ek) as (Hk' & Nk').
           pose proof (proj1 (never_spec k' k Hk' Hk Nk') eq_refl) as C. destruct (proj1 (SO q s t Ls Lt) k' k Hk' Hk Nk') as (T & _).
           assert (Na : col_notnull a = true).
           { apply (proj2 (PS q s Ls) k' a Hk'); [unfold primary in *; congruence|exact Ha|]. rewrite C, En', <- En. exact Ck. }
           congruence.
        -- apply is_key_spec. left. exact Pk.
      * cbn [map]. rewrite (proj2 (beqb_eq _ _) Pk). cbn. apply bmem_In. rewrite <- En. exact Ck.
Qed.

Let CC := changed_constraints s t.
Definition reflagged (a b : constraint) : constraint :=
  if xorb (con_deferrable a) (con_deferrable b) || xorb (con_deferred a) (con_deferred b)
  then with_flags (con_deferrable b) (con_deferred b) a else a.
Lemma reflagged_same : forall a b, same_flags (reflagged a b) b.
Proof.
  intros a b. unfold reflagged, same_flags. destruct (con_deferrable a) eqn:E1, (con_deferrable b), (con_deferred a) eqn:E2, (con_deferred b); cbn; auto.
Qed.
Lemma changed_in : forall a b, In (a, b) CC <-> In b (tb_constraints t) /\ called con_name (tb_constraints s) (con_name b) = Some a
  /\ xorb (con_deferrable a) (con_deferrable b) || xorb (con_deferred a) (con_deferred b) = true.
Proof. intros a b. unfold CC, changed_constraints. rewrite filter_In, (pairs_cons_in src dest q s t a b Os Od Ls Lt). tauto. Qed.
Lemma changed_nodup : NoDup (map (fun p => con_name (snd p)) CC).
Proof. unfold CC, changed_constraints. apply NoDup_filter_map. apply both_nodup. exact (orderly_constraints _ Od _ _ Lt). Qed.
Let cons1 := updated chk (filter needs L) check [] kept.
Let cons2 := updated (fun p => con_name (snd p)) CC (fun p => Some (with_flags (con_deferrable (snd p)) (con_deferred (snd p)) (fst p))) [] cons1.
Let cons3 := updated check_name V (fun _ => None) [] cons2.
Lemma cons1_at : forall n, (forall b, In b V -> check_name b <> n) -> cons1 n = kept n.
Proof.
  intros n H. unfold cons1. rewrite updated_end. destruct (called chk (filter needs L) n) as [p|] eqn:E; [|reflexivity].
  apply called_some in E. destruct E as (Hp & En). exfalso. apply (H (snd p)); [|exact En]. rewrite validated_is. apply in_map. exact Hp.
Qed.
Lemma own_name : forall b k, In b (tb_columns t) -> In k (tb_constraints t) -> check_name b <> con_name k.
Proof.
  intros b k Hb Hk. rewrite (check_name_temp b Hb). destruct (CR q t Lt) as (_ & _ & X & _). destruct (X b Hb) as (_ & _ & _ & _ & CP).
  destruct (CP eq_refl) as (_ & CP'). intro Z. exact (CP' k Hk (eq_sym Z)).
Qed.
Lemma validated_cols : forall b, In b V -> In b (tb_columns t).
Proof. intros b Hb. apply validated_in in Hb. destruct Hb as (a & Hb & _). apply altered_in in Hb. apply Hb. Qed.
Lemma changed_kept : forall a b, In (a, b) CC -> kept (con_name b) = Some a.
Proof.
  intros a b H. apply changed_in in H. destruct H as (H1 & H2 & _). unfold kept, left_cons. rewrite H2, (called_in _ _ _ (orderly_constraints _ Od _ _ Lt) H1). reflexivity.
Qed.
Lemma cons2_checks : forall b, In b V -> cons2 (check_name b) <> None.
Proof.
  intros b Hb. unfold cons2. rewrite updated_end. destruct (called _ CC (check_name b)) as [p|]; [discriminate|]. unfold cons1. rewrite updated_end.
  destruct (called chk (filter needs L) (check_name b)) as [p|] eqn:E; [discriminate|]. exfalso. rewrite validated_is in Hb. apply in_map_iff in Hb.
  destruct Hb as (p & <- & Hp). exact (proj1 (called_none _ _ _) E p Hp eq_refl).
Qed.
Lemma cons3_at : forall n, cons3 n =
  match called con_name (tb_constraints t) n, kept n with Some b, Some a => Some (reflagged a b) | _, o => o end.
Proof.
  intro n. unfold cons3. rewrite updated_end. destruct (called check_name V n) as [c|] eqn:EV.
  - apply called_some in EV. destruct EV as (Hc & <-). rewrite (kept_no_check c (validated_cols c Hc)). destruct (called con_name (tb_constraints t) _); reflexivity.
  - unfold cons2. rewrite updated_end.
    assert (H1 : cons1 n = kept n) by (apply cons1_at; exact (proj1 (called_none _ _ _) EV)).
    destruct (called (fun p => con_name (snd p)) CC n) as [(a & b)|] eqn:EC.
    + apply called_some in EC. destruct EC as (Hp & <-). cbn [fst snd]. rewrite (changed_kept a b Hp). apply changed_in in Hp. destruct Hp as (P1 & P2 & P3).
      rewrite (called_in _ _ _ (orderly_constraints _ Od _ _ Lt) P1). unfold reflagged. rewrite P3. reflexivity.
    + rewrite H1. destruct (called con_name (tb_constraints t) n) as [b|] eqn:Eb; [|destruct (kept n); reflexivity].
      destruct (kept n) as [a|] eqn:Ea; [|reflexivity]. unfold reflagged.
      destruct (xorb (con_deferrable a) (con_deferrable b) || xorb (con_deferred a) (con_deferred b)) eqn:X; [|reflexivity]. exfalso.
      apply called_some in Eb. destruct Eb as (Hb & En). apply (proj1 (called_none _ _ _) EC (a, b)); [|exact En]. apply changed_in.
      split; [exact Hb|]. split; [|exact X]. rewrite En. unfold kept, left_cons in Ea. destruct (called con_name (tb_constraints s) n) as [a'|]; [|discriminate].
      rewrite <- En, (called_in _ _ _ (orderly_constraints _ Od _ _ Lt) Hb) in Ea. exact Ea.
Qed.

(** *** The statements of an altered table *)
Hypothesis EC : ct_current cat = cur.
Lemma column_results : forall l rs, (forall a b, In (a, b) l -> In a (tb_columns s) /\ In b (tb_columns t)) ->
  flatr (fun '(c, d) => bindr (alter_column_postgres flt cat w c d) (fun r => Ok [r])) l = Ok rs ->
  flat_map fst rs = flat_map (fun p => column_stmts flt cat w (fst p) (snd p)) l.
Proof.
  intro l. induction l as [|(a & b) l IH]; intros rs HL H; cbn [flatr] in H; [injection H as <-; reflexivity|].
  destruct (HL a b (or_introl eq_refl)) as (Ha & Hb). destruct (alter_column_is flt cat w a b (Rs a Ha) (Rt b Hb)) as (ws & X). rewrite X in H. cbn [bindr] in H.
  destruct (flatr _ l) as [rs'| |] eqn:F; try discriminate H. cbn [bindr] in H. injection H as <-. cbn [app flat_map fst snd]. f_equal. apply IH; [|reflexivity].
  intros a' b' H'. apply HL. right. exact H'.
Qed.
Lemma alter_code_is : forall l, w = qualify cur (tb_schema t) (tb_name t) -> alter_code Postgres flt cat (the_alter_postgres cat true s t) = Ok l ->
  l = map (fun i => QDropIndex (fst (qualify cur (ix_schema i) []), tb_name t) (ix_name i)) (only_ixs s t)
   ++ map (QDropConstraint w) (dropped_keys s t never)
   ++ map (fun c => QDropColumn w (col_name c)) (only_cols s t)
   ++ map (QAddColumn w) (only_cols t s)
   ++ flat_map (fun p => column_stmts flt cat w (fst p) (snd p)) L
   ++ map (fun p => QAlterConstraint w (snd p)) CC
   ++ flat_map (fun c => [QValidate w (check_name c); QSetNotNull w (col_name c); QDropCheck w (check_name c)]) V
   ++ map (fun i => QCreateIndex (qualify cur (ix_schema i) (ix_table i)) i true) (only_ixs t s)
   ++ flat_map (fun c => [QCreateIndex (at_owner cur c) (key_index c) true; QAddUsingIndex w c]) added.
Proof.
  intros l Ew H. cbn [alter_code] in H. unfold alter_steps_postgres, the_alter_postgres in H.
  cbn [al_schema al_table al_drop_constraints al_drop_indexes al_drop_columns al_add_columns al_alter_columns al_alter_constraints al_validate al_create_indexes al_add_constraints keep] in H.
  rewrite EC, <- Ew in H. fold coll L in H. destruct (flatr _ L) as [rs| |] eqn:F; try discriminate H. cbn [bindr fst] in H. injection H as <-.
  assert (FS : flat_map fst rs = flat_map (fun p => column_stmts flt cat w (fst p) (snd p)) L).
  { apply column_results; [|exact F]. intros a b Hab. apply altered_in in Hab. destruct Hab as (H1 & H2 & _). split; [apply (called_some _ _ _ _ H2)|exact H1]. }
  rewrite FS. clear F FS.
  cbn [flat_map ps_stmts]. rewrite !flat_map_app, !flat_map_map, in_file_stmts by (unfold V; intros ->; reflexivity).
  rewrite (flat_map_flat_map ps_stmts (fun c : constraint => [Step _ _ _ _; Step _ _ _ _])). cbn [flat_map ps_stmts app].
  unfold dropped_keys. replace (filter (fun '(a, b) => never a b) (pairs_cons s t)) with (@nil (constraint * constraint))
    by (induction (pairs_cons s t) as [|(a & b) m IH]; [reflexivity|exact IH]). unfold old_pkey. rewrite andb_false_r. cbn [opt_list map].
  rewrite <- !app_assoc. unfold CC, V, L, added. rewrite (flat_map_single (fun i => QCreateIndex (qualify cur (ix_schema i) (ix_table i)) i true)). reflexivity.
Qed.

Theorem postgres_pair : forall l x dt, w = qualify cur (tb_schema t) (tb_name t) ->
  alter_code Postgres flt cat (the_alter_postgres cat true s t) = Ok l ->
  steady_ x -> db_tables x q = Some dt -> old_state s t dt ->
  lead l q x (ready Postgres cur coll (fun b => called con_name (tb_constraints s) (con_name b) = None) t).
Proof.
  intros l x dt Ew Hl J E SH. rewrite (alter_code_is l Ew Hl). clear l Hl.
  pose proof (orderly_columns _ Os _ _ Ls) as Ncs. pose proof (orderly_columns _ Od _ _ Lt) as Nct.
  pose proof (orderly_indexes _ Os _ _ Ls) as Nis. pose proof (orderly_indexes _ Od _ _ Lt) as Nit.
  (* indexes are dropped *)
  eapply leads_app.
  { eapply leads_imp; [eapply (drop_indexes_lead Postgres cur coll src dest q (only_ixs s t) (fun i => (fst (qualify cur (ix_schema i) []), tb_name t))); [| | |exact J|exact E|exact SH]|].
    - intros i Hi. apply (only_ixs_in src dest q s t i Os Od Ls Lt) in Hi. destruct Hi as (Hi & _).
      destruct Os as (_ & _ & O3). destruct (O3 q s Ls) as (_ & _ & _ & O4). destruct (O4 i Hi) as (_ & Eq).
      assert (X : q = (ix_schema i, tb_name t)).
      { rewrite <- Eq. f_equal. destruct Lt as (sc & _ & _ & Z). rewrite <- Eq in Z. injection Z as _ Z. exact Z. }
      assert (Y : fst q <> []) by apply (orderly_schema _ Od _ _ Lt). rewrite X in Y |- *. cbn [fst] in Y.
      pose proof (place_qualify cur (ix_schema i) (tb_name t) Y) as P. unfold qualify in P |- *. destruct (negb (is_empty (ix_schema i)) && negb (beqb (ix_schema i) cur)); exact P.
    - apply gone_nodup. exact Nis.
    - exact (only_ixs_dropped src dest Os Od q s t Ls Lt).
    - intros dt1 _ S1. eapply shape_ext; [reflexivity|reflexivity|exact (drop_ixs_left src dest Os Od q s t Ls Lt)|exact S1]. }
  clear x dt J E SH. intros x dt J E SH.
  (* constraints are dropped *)
  eapply leads_app.
  { eapply leads_imp; [eapply (drop_constraints_lead Postgres cur coll src dest KT q s t Ls Lt); [exact W| | |exact J|exact E|exact SH]|].
    - exact (dropped_keys_nodup src dest Os Od q s t Ls Lt never).
    - intros c Hc. exact (dropped_keys_kept Postgres cur src dest Os Od q s t Ls Lt SO never never_spec c Hc).
    - intros dt1 _ S1. eapply shape_ext; [reflexivity|exact (dropped_keys_left src dest Os Od q s t Ls Lt never)|reflexivity|exact S1]. }
  clear x dt J E SH. intros x dt J E SH.
  (* columns are dropped *)
  eapply leads_app.
  { eapply leads_imp; [eapply (drop_columns_lead Postgres cur coll src dest Od CR q t Lt (only_cols s t) w); [exact W| | | | |exact J|exact E|exact SH]|].
    - apply gone_nodup. exact Ncs.
    - exact (only_cols_dropped src dest Os Od q s t Ls Lt).
    - exact (left_key_columns Postgres cur src dest q s t Ls Lt CR SO never never_spec).
    - exact (left_ixs_columns Postgres cur src dest q s t Ls Lt CR SO).
    - intros dt1 _ S1. eapply shape_ext; [exact (drop_cols_left src dest Os Od q s t Ls Lt)|reflexivity|reflexivity|exact S1]. }
  clear x dt J E SH. intros x dt J E SH.
  (* columns are added *)
  eapply leads_app.
  { eapply leads_imp; [eapply (add_columns_lead Postgres cur coll src dest q (only_cols t s) w); [exact W| | |exact J|exact E|exact SH]|].
    - apply gone_nodup. exact Nct.
    - exact (only_cols_added src dest Os Od q s t Ls Lt).
    - intros dt1 _ S1. eapply shape_ext; [exact (add_cols_both Postgres coll src dest Os Od q s t Ls Lt)|reflexivity|reflexivity|exact S1]. }
  clear x dt J E SH. intros x dt J E SH.
  (* columns are altered *)
  eapply leads_app; [eapply columns_lead; [exact J|exact E|exact SH]|].
  clear x dt J E SH. intros x dt J E SH.
  (* constraints are altered *)
  eapply leads_app.
  { eapply flags_lead; [exact changed_nodup| |exact J|exact E|exact SH].
    intros a b Hab. pose proof (changed_kept a b Hab) as K. pose proof (proj1 (changed_in a b) Hab) as (H1 & H2 & H3).
    pose proof (called_some _ _ _ _ H2) as (Ha & Ena). destruct (proj1 (SO q s t Ls Lt) a b Ha H1 Ena) as (T & _ & _ & SF).
    assert (Fb : foreign b).
    { destruct (is_fkey b) eqn:F; [apply is_fkey_spec; exact F|]. exfalso.
      destruct (SF eq_refl) as (F1 & F2); [intro Z; apply is_fkey_spec in Z; congruence|]. rewrite F1, F2, !xorb_nilpotent in H3. discriminate. }
    split; [|split].
    - pose proof (cons1_at (con_name b)) as X. unfold cons1 in X. rewrite X; [exact K|]. intros c Hc. apply own_name; [apply validated_cols; exact Hc|exact H1].
    - unfold foreign in *. congruence.
    - destruct (CR q t Lt) as (_ & _ & _ & _ & _ & _ & CF & _). apply (CF b H1 Fb). }
  clear x dt J E SH. intros x dt J E SH. fold cons1 in SH. fold cons2 in SH. fold cols1 in SH.
  (* checks are validated *)
  eapply leads_app.
  { eapply validate_lead; [apply validated_nodup|apply validated_nodup| |exact J|exact E|exact SH].
    intros c Hc. split; [|apply cons2_checks; exact Hc]. rewrite cols1_at. apply both_cols_exist. apply in_map. apply validated_cols. exact Hc. }
  clear x dt J E SH. intros x dt J E SH. fold cols2 in SH. fold cons3 in SH.
  (* indexes are created *)
  eapply leads_app.
  { eapply leads_imp; [eapply (create_indexes_lead Postgres cur coll src dest Od CR SEP q t Lt (only_ixs t s) (fun i => qualify cur (ix_schema i) (ix_table i)) true); [| | | |exact J|exact E|exact SH]|].
    - intros i Hi. apply (only_ixs_in dest src q t s i Od Os Lt Ls) in Hi. destruct Hi as (Hi & _).
      destruct Od as (_ & _ & O3). destruct (O3 q t Lt) as (_ & _ & _ & O4). destruct (O4 i Hi) as (_ & Eq).
      assert (Y : fst q <> []) by apply (orderly_schema _ Od _ _ Lt). rewrite place_qualify; [exact Eq|]. rewrite <- Eq in Y. exact Y.
    - apply gone_nodup. exact Nit.
    - exact (only_ixs_created src dest Os Od q s t Ls Lt).
    - exact cols2_exist.
    - intros dt1 _ S1. eapply shape_ext; [reflexivity|exact cons3_at|exact (create_ixs_both src dest Os Od q s t Ls Lt)|exact S1]. }
  clear x dt J E SH. intros x dt J E SH.
  (* keys are added *)
  eapply leads_imp; [eapply (add_indexed_keys_lead Postgres cur coll src dest Od PD CR SEP q t Lt added w); [exact W|reflexivity| | | |exact J|exact E|exact SH]|].
  - apply NoDup_filter_map. apply gone_nodup. exact (orderly_constraints _ Od _ _ Lt).
  - intros c Hc. split.
    + destruct (added_missing Postgres cur src dest Od q s t Ls Lt SO PD never never_spec _ added_in c Hc) as (M1 & M2 & M3 & M4).
      split; [exact M1|]. split; [exact M2|]. fold kept in M3, M4. split.
      * rewrite M3. destruct (called _ _ _); reflexivity.
      * intros P n k Z Pk. destruct (kept n) as [a|] eqn:Ka; [|destruct (called con_name (tb_constraints t) n); discriminate].
        apply (M4 P n a Ka). destruct (called con_name (tb_constraints t) n) as [b|]; injection Z as <-; [|exact Pk].
        unfold reflagged in Pk. destruct (_ || _) in Pk; exact Pk.
    + exact (added_no_index Postgres cur src dest Od q s t Ls Lt CR SO SEP PD never never_spec _ added_in c (or_intror eq_refl) Hc).
  - exact cols2_exist.
  - intros dt1 _ S1.
    refine (pair_ready Postgres cur coll s t never added added_in
      (fun n => not_null (forced added [] n) (cols2 n)) (with_flags false false) reflagged dt1 _ _ _ _ _ _).
    + intro b. split; [reflexivity|]. split; [reflexivity|]. split; [reflexivity|]. auto.
    + intros a b Ha Hb En R. destruct (proj1 (SO q s t Ls Lt) a b Ha Hb En) as (T & _ & F & _).
      pose proof (proj1 (never_spec a b Ha Hb En) eq_refl) as C. unfold reflagged. destruct (_ || _); (split; [exact T|]; split; [exact C|exact F]).
    + intros _. split.
      * intros b Hb. apply added_in in Hb. destruct Hb as (Hb & Ad). destruct (CR q t Lt) as (_ & _ & _ & _ & _ & CU & _).
        assert (K : unique_key b). { unfold adds in Ad. destruct (called _ _ _); [discriminate|]. apply is_key_spec. exact Ad. }
        destruct (CU b Hb K eq_refl) as (U1 & U2). split; cbn; symmetry; assumption.
      * intros a b _ _ _. apply reflagged_same.
    + intros n N. unfold cols2. rewrite updated_end. destruct (called col_name V n) as [c|] eqn:EV.
      * exfalso. apply called_some in EV. destruct EV as (Hc & En). apply (proj1 (called_none _ _ _) N c (validated_cols c Hc) En).
      * rewrite cols1_at. unfold both_cols. rewrite N. destruct (forced _ _ n); reflexivity.
    + exact cols2_alike.
    + eapply shape_ext; [reflexivity| |reflexivity|exact S1].
      exact (added_both dest Od q s t Lt never _ added_in (with_flags false false) reflagged).
Qed.
End Postgres.
