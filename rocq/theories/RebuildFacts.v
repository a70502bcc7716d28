(** Migrations of SQLite databases keep the rows if nothing refers to what they drop. *)
From Coq Require Import Lia.
From Verif Require Import GoStr GoStrFacts ModelCatalog ModelCache CacheFacts ModelDdl ModelDiff ModelDiffSql SpecDiff DiffLookup DiffFacts DiffSelf DiffSqlite SpecRebuild.

(** ** Tables of a database *)
Lemma sfind_in : forall db n x, sfind db n = Some x -> In x db /\ st_name x = n.
Proof.
  intros db n x H. apply find_some in H. destruct H as (H & E). split; [exact H|].
  destruct (beqb_spec (st_name x) n); [assumption|discriminate].
Qed.
Lemma sfind_app : forall db l n, sfind (db ++ l) n = match sfind db n with Some x => Some x | None => sfind l n end.
Proof. intros db l n. unfold sfind. induction db as [|x db IH]; cbn; [reflexivity|]. destruct (beqb (st_name x) n); [reflexivity|exact IH]. Qed.
Lemma sfind_none : forall db n, sfind db n = None -> ~ In n (map st_name db).
Proof.
  intros db n H K. apply in_map_iff in K. destruct K as (x & <- & K).
  pose proof (find_none _ _ H x K) as E. cbn in E. rewrite beqb_refl in E. discriminate.
Qed.
Lemma sfind_unique : forall db x, NoDup (map st_name db) -> In x db -> sfind db (st_name x) = Some x.
Proof.
  intros db x N H. destruct (sfind db (st_name x)) as [y|] eqn:E.
  - destruct (sfind_in _ _ _ E) as (Hy & Ey). f_equal. clear E. induction db as [|z db IH]; [contradiction|].
    cbn in N. inversion N as [|? ? N1 N2]; subst. destruct Hy as [->|Hy], H as [->|H]; [reflexivity| | |exact (IH N2 H Hy)].
    + exfalso. apply N1. rewrite Ey. apply in_map. exact H.
    + exfalso. apply N1. rewrite <- Ey. apply in_map. exact Hy.
  - exfalso. exact (sfind_none _ _ E (in_map st_name _ _ H)).
Qed.
Lemma sfind_map : forall f db n, (forall x, st_name (f x) = st_name x) -> sfind (map f db) n = option_map f (sfind db n).
Proof.
  intros f db n H. unfold sfind. induction db as [|x db IH]; cbn; [reflexivity|]. rewrite H. destruct (beqb (st_name x) n); [reflexivity|exact IH].
Qed.
Lemma sfind_remove : forall db m n, sfind (sremove db m) n = if beqb m n then None else sfind db n.
Proof.
  intros db m n. unfold sfind, sremove. induction db as [|x db IH]; cbn; [destruct (beqb m n); reflexivity|].
  destruct (beqb_spec (st_name x) m) as [E|E]; cbn.
  - rewrite IH, E. destruct (beqb_spec m n); reflexivity.
  - rewrite IH. destruct (beqb_spec m n); [subst|reflexivity]. destruct (beqb_spec (st_name x) n); [contradiction|reflexivity].
Qed.
Lemma nodup_filter : forall f (db : sdb), NoDup (map st_name db) -> NoDup (map st_name (filter f db)).
Proof.
  intros f db. induction db as [|x db IH]; cbn; intro N; [exact N|]. inversion N as [|? ? N1 N2]; subst.
  destruct (f x); cbn; [|exact (IH N2)]. constructor; [|exact (IH N2)]. intro H. apply N1.
  apply in_map_iff in H. destruct H as (y & E & H). apply filter_In in H. rewrite <- E. apply in_map. apply H.
Qed.
Lemma sfind_update : forall db m f n, (forall x, st_name (f x) = st_name x) ->
  sfind (supdate db m f) n = option_map (fun x => if beqb m n then f x else x) (sfind db n).
Proof.
  intros db m f n H. unfold supdate. rewrite sfind_map.
  - destruct (sfind db n) as [x|] eqn:E; [|reflexivity]. apply sfind_in in E. destruct E as (_ & E). subst n. cbn. f_equal.
    destruct (beqb_spec (st_name x) m) as [E|E], (beqb_spec m (st_name x)) as [F|F]; try reflexivity; exfalso; auto.
  - intro x. destruct (beqb (st_name x) m); [apply H|reflexivity].
Qed.
Lemma update_names : forall db m f, (forall x, st_name (f x) = st_name x) -> map st_name (supdate db m f) = map st_name db.
Proof. intros db m f H. unfold supdate. rewrite map_map. apply map_ext. intro x. destruct (beqb (st_name x) m); [apply H|reflexivity]. Qed.

(** ** Deleted rows to which nothing refers *)
Definition unreferred (n : bytes) (db : sdb) : Prop := forall x f, In x db -> st_rows x <> [] -> In f (st_fkeys x) -> fk_table f <> n.
Lemma no_hits : forall n key p db x r, unreferred n db -> In x db -> In r (st_rows x) -> hits n key p x r = [].
Proof.
  intros n key p db x r U Hx Hr. unfold hits. apply filter_none. intros f Hf. unfold refers.
  assert (fk_table f <> n) by (apply (U x f Hx); [intro Z; rewrite Z in Hr; contradiction|exact Hf]).
  destruct (beqb_spec (fk_table f) n); [contradiction|reflexivity].
Qed.
Lemma keep_all : forall f l, (forall r, In r l -> f r = Some r) -> keep_rows f l = (l, []).
Proof.
  intros f l. induction l as [|r l IH]; cbn; intro H; [reflexivity|]. rewrite IH by (intros; apply H; right; assumption).
  rewrite (H r (or_introl eq_refl)). reflexivity.
Qed.
Lemma child_none : forall e n key p db x, unreferred n db -> In x db -> child e (n, key, p) x = (x, []).
Proof.
  intros e n key p db x U Hx. unfold child. rewrite keep_all; [destruct x; reflexivity|].
  intros r Hr. rewrite (no_hits n key p db x r U Hx Hr). reflexivity.
Qed.
Lemma children_none : forall e n key p (db0 db : sdb), (forall x, In x db -> child e (n, key, p) x = (x, [])) ->
  map fst (map (child e (n, key, p)) db) = db /\ flat_map snd (map (child e (n, key, p)) db) = [].
Proof.
  intros e n key p _ db. induction db as [|x db IH]; intro H; [split; reflexivity|]. destruct IH as (I1 & I2); [intros; apply H; right; assumption|].
  cbn [map flat_map]. rewrite (H x (or_introl eq_refl)). cbn [fst snd]. rewrite I1, I2. split; reflexivity.
Qed.
Lemma cascade_quiet : forall e n key rows fuel done db done' db', unreferred n db ->
  cascade fuel e (map (fun r => (n, key, r)) rows) done db = Some (done', db') -> db' = db.
Proof.
  intros e n key rows. induction rows as [|r rows IH]; intros fuel done db done' db' U H; cbn [map] in H.
  - destruct fuel; cbn in H; congruence.
  - destruct fuel as [|fuel]; [discriminate|]. cbn [cascade] in H. destruct (existsb (restricted (n, key, r)) db); [discriminate|].
    destruct (children_none e n key r db db) as (E1 & E2); [intros x Hx; exact (child_none e n key r db x U Hx)|].
    cbn zeta in H. rewrite E1, E2, app_nil_r in H. exact (IH _ _ _ _ _ U H).
Qed.
Lemma drop_quiet : forall e db x db', unreferred (st_name x) db \/ en_fkeys e = false -> drop_table e db x = Some db' -> db' = sremove db (st_name x).
Proof.
  intros e db x db' U H. unfold drop_table in H. destruct (en_fkeys e) eqn:F; [|congruence].
  destruct U as [U|U]; [|discriminate].
  destruct (cascade _ _ _ _ _) as [[done db1]|] eqn:C; [|discriminate]. apply cascade_quiet in C.
  - destruct (existsb _ done); [discriminate|]. congruence.
  - intros y f Hy. apply U. apply filter_In in Hy. apply Hy.
Qed.

(** ** Rows that stay *)
Lemma rows_stay_refl : forall P x, rows_stay P x x.
Proof. intros P x. split; [|auto]. induction (st_rows x); constructor; auto. Qed.
Lemma rows_stay_trans : forall P x y z, rows_stay P x y -> rows_stay P y z -> rows_stay P x z.
Proof.
  intros P x y z (R1 & C1) (R2 & C2). split; [|auto].
  revert R2. generalize (st_rows z). induction R1 as [|r r' l l' E R1 IH]; intros lz R2; inversion R2 as [|? r'' ? lz' E' R2']; subst; constructor.
  - intros c Hc Pc. rewrite (E' c (C1 c Hc Pc) Pc). exact (E c Hc Pc).
  - apply IH. exact R2'.
Qed.
Lemma data_stays_refl : forall drop dest db, data_stays drop dest db db.
Proof. intros drop dest db n x H _. exists x. split; [exact H|apply rows_stay_refl]. Qed.
Lemma data_stays_trans : forall drop dest a b c, data_stays drop dest a b -> data_stays drop dest b c -> data_stays drop dest a c.
Proof.
  intros drop dest a b c H1 H2 n x E S. destruct (H1 n x E S) as (y & Ey & R1). destruct (H2 n y Ey S) as (z & Ez & R2).
  exists z. split; [exact Ez|]. exact (rows_stay_trans _ _ _ _ R1 R2).
Qed.

(** ** The invariant *)
Definition good (e : env) (D : bytes -> Prop) (db : sdb) : Prop :=
  NoDup (map st_name db)
  /\ (en_fkeys e = true -> forall x f, In x db -> st_rows x <> [] -> In f (st_fkeys x) -> ~ D (fk_table f)).
Lemma good_quiet : forall e D db n, good e D db -> D n -> unreferred n db \/ en_fkeys e = false.
Proof.
  intros e D db n (_ & G) Dn. destruct (en_fkeys e); [left|right; reflexivity].
  intros x f Hx R Hf E. apply (G eq_refl x f Hx R Hf). rewrite E. exact Dn.
Qed.
(** The columns of the tables are known. *)
Definition has_columns (db : sdb) (n : bytes) (cols : list bytes) : Prop :=
  exists x, sfind db n = Some x /\ forall c, In c (st_columns x) -> In c cols.

Lemma run_app : forall e l1 l2 db db', run_all e (l1 ++ l2) db = Some db' -> exists m, run_all e l1 db = Some m /\ run_all e l2 m = Some db'.
Proof.
  intros e l1. induction l1 as [|s l1 IH]; intros l2 db db' H; cbn [run_all app] in *.
  - exists db. auto.
  - destruct (en_refuses e db s); [discriminate|]. destruct (effect e db s); [|discriminate]. exact (IH _ _ _ H).
Qed.
Lemma run_step : forall e s l db db', run_all e (s :: l) db = Some db' -> exists m, effect e db s = Some m /\ run_all e l m = Some db'.
Proof.
  intros e s l db db' H. cbn [run_all] in H. destruct (en_refuses e db s); [discriminate|]. destruct (effect e db s) as [m|]; [|discriminate].
  exists m. auto.
Qed.
(** Statements without an effect on rows. *)
Lemma run_none : forall e l db db', (forall s, In s l -> effect e db s = Some db) -> run_all e l db = Some db' -> db' = db.
Proof.
  intros e l db db'. induction l as [|s l IH]; intros Hl H; [cbn in H; congruence|].
  apply run_step in H. destruct H as (m & E & H). rewrite (Hl s (or_introl eq_refl)) in E. injection E as <-.
  apply IH; [intros; apply Hl; right; assumption|exact H].
Qed.

(** ** The groups of statements *)
Lemma run_drops : forall e D drop dest (ts : list table) db db', good e D db ->
  (forall t, In t ts -> D (tb_name t) /\ ~ table_stays drop dest (tb_name t)) ->
  run_all e (map (fun t => QDropTable (bare (tb_name t))) ts) db = Some db' ->
  good e D db' /\ data_stays drop dest db db'
  /\ (forall n, (forall t, In t ts -> tb_name t <> n) -> sfind db' n = sfind db n).
Proof.
  intros e D drop dest ts. induction ts as [|t ts IH]; intros db db' G T H.
  - cbn in H. injection H as <-. split; [exact G|]. split; [apply data_stays_refl|reflexivity].
  - cbn [map] in H. apply run_step in H. destruct H as (m & E & H). cbn [effect bare snd] in E.
    destruct (sfind db (tb_name t)) as [x|] eqn:F; [|discriminate]. destruct (sfind_in _ _ _ F) as (_ & Nx).
    destruct (T t (or_introl eq_refl)) as (Dt & St).
    apply drop_quiet in E; [|rewrite Nx; exact (good_quiet _ _ _ _ G Dt)]. rewrite Nx in E. subst m.
    destruct (IH (sremove db (tb_name t)) db') as (G' & S' & F').
    + destruct G as (G1 & G2). split; [apply nodup_filter; exact G1|]. intros V y f Hy. apply (G2 V). apply filter_In in Hy. apply Hy.
    + intros u Hu. apply T. right. exact Hu.
    + exact H.
    + split; [exact G'|]. split.
      * eapply data_stays_trans; [|exact S']. intros n y Hy Sn. exists y. rewrite sfind_remove.
        destruct (beqb_spec (tb_name t) n) as [E|E]; [exfalso; apply St; rewrite E; exact Sn|]. split; [exact Hy|apply rows_stay_refl].
      * intros n Hn. rewrite F' by (intros u Hu; apply Hn; right; exact Hu). rewrite sfind_remove.
        destruct (beqb_spec (tb_name t) n) as [E|]; [exfalso; exact (Hn t (or_introl eq_refl) E)|reflexivity].
Qed.

Lemma good_create : forall e D db n cols key fks rows, good e D db -> sfind db n = None ->
  (en_fkeys e = true -> rows <> [] -> forall f, In f fks -> ~ D (fk_table f)) ->
  good e D (db ++ [STable n cols key fks rows]).
Proof.
  intros e D db n cols key fks rows (G1 & G2) F K. split.
  - rewrite map_app. cbn. apply NoDup_join; [exact G1|repeat constructor; intros []|].
    intros m H [<-|[]]. exact (sfind_none _ _ F H).
  - intros V x f Hx R Hf. apply in_app_iff in Hx. destruct Hx as [Hx|[<-|[]]]; [exact (G2 V x f Hx R Hf)|exact (K V R f Hf)].
Qed.
Lemma run_creates : forall e D drop dest (ts : list table) db db', good e D db ->
  run_all e (flat_map (fun t => QCreateTable (bare (tb_name t)) t
                            :: map (fun x => QCreateIndex (bare (ix_table x)) x false) (tb_indexes t)) ts) db = Some db' ->
  good e D db' /\ data_stays drop dest db db' /\ (forall n x, sfind db n = Some x -> sfind db' n = Some x).
Proof.
  intros e D drop dest ts. induction ts as [|t ts IH]; intros db db' G H.
  - cbn in H. injection H as <-. split; [exact G|]. split; [apply data_stays_refl|auto].
  - cbn [flat_map] in H. rewrite <- app_comm_cons in H. apply run_step in H. destruct H as (m & E & H). cbn [effect bare snd] in E.
    destruct (sfind db (tb_name t)) as [x|] eqn:F; [discriminate|]. injection E as <-.
    apply run_app in H. destruct H as (m2 & H1 & H). apply run_none in H1.
    2: { intros s Hs. apply in_map_iff in Hs. destruct Hs as (i & <- & _). reflexivity. }
    subst m2. apply IH in H.
    2: { apply good_create; [exact G|exact F|intros _ Z; contradiction]. }
    destruct H as (G' & S' & F').
    assert (K : forall n y, sfind db n = Some y -> sfind (db ++ [STable (tb_name t) (map col_name (tb_columns t)) (key_of t) (fkeys_of t) []]) n = Some y).
    { intros n y Hy. rewrite sfind_app, Hy. reflexivity. }
    split; [exact G'|]. split; [|auto].
    eapply data_stays_trans; [|exact S']. intros n y Hy Sn. exists y. split; [exact (K n y Hy)|apply rows_stay_refl].
Qed.

Lemma new_name : forall t : bytes, t ++ B"_new" <> t.
Proof. intros t E. apply (f_equal (@List.length _)) in E. rewrite app_length in E. cbn in E. lia. Qed.
Lemma update_last : forall db x f, sfind db (st_name x) = None -> supdate (db ++ [x]) (st_name x) f = db ++ [f x].
Proof.
  intros db x f F. unfold supdate. rewrite map_app. cbn. rewrite beqb_refl. f_equal.
  rewrite <- (map_id db) at 2. apply map_ext_in. intros y Hy. destruct (beqb_spec (st_name y) (st_name x)) as [E|]; [|reflexivity].
  exfalso. apply (sfind_none _ _ F). rewrite <- E. apply in_map. exact Hy.
Qed.
(** What a statement may change in the other tables: their foreign keys. *)
Definition same_data (x y : stable) : Prop := st_columns y = st_columns x /\ st_rows y = st_rows x.
Lemma same_stays : forall P x y, same_data x y -> rows_stay P x y.
Proof. intros P x y (C & R). unfold rows_stay. rewrite C, R. apply rows_stay_refl. Qed.
Definition others (t : bytes) (db db' : sdb) : Prop :=
  forall n x, n <> t -> sfind db n = Some x -> exists y, sfind db' n = Some y /\ same_data x y.

(** The names after a table has been given another name. *)
Lemma sfind_renamed : forall a n db m, sfind db n = None -> m <> a ->
  sfind (map (renamed a n) db) m = (if beqb n m then option_map (renamed a n) (sfind db a) else option_map (renamed a n) (sfind db m)).
Proof.
  intros a n db m F M. unfold sfind in *. induction db as [|x db IH]; cbn in *; [destruct (beqb n m); reflexivity|].
  destruct (beqb_spec (st_name x) n) as [|Nn]; [discriminate|].
  destruct (beqb_spec (st_name x) a) as [Ea|Na].
  - destruct (beqb_spec n m) as [->|Nm]; [reflexivity|].
    destruct (beqb_spec (st_name x) m) as [Em|]; [congruence|]. exact (IH F).
  - destruct (beqb_spec n m) as [->|Nm].
    + destruct (beqb_spec (st_name x) m); [contradiction|]. exact (IH F).
    + destruct (beqb (st_name x) m); [reflexivity|exact (IH F)].
Qed.
Lemma nodup_renamed : forall a n db, NoDup (map st_name db) -> sfind db n = None -> NoDup (map st_name (map (renamed a n) db)).
Proof.
  intros a n db N F. apply sfind_none in F. rewrite map_map. induction db as [|x db IH]; cbn in *; [constructor|].
  inversion N as [|? ? N1 N2]; subst. constructor; [|apply IH; [exact N2|intro Z; apply F; right; exact Z]].
  intro H. apply in_map_iff in H. destruct H as (y & E & Hy).
  destruct (beqb_spec (st_name x) a) as [Ex|Ex], (beqb_spec (st_name y) a) as [Ey|Ey].
  - apply N1. rewrite Ex, <- Ey. apply in_map. exact Hy.
  - apply F. right. rewrite <- E. apply in_map. exact Hy.
  - apply F. left. symmetry. exact E.
  - apply N1. rewrite <- E. apply in_map. exact Hy.
Qed.

Lemma run_copy : forall e D drop dest s d db db', good e D db ->
  let t := tb_name d in
  D t -> D (t ++ B"_new") ->
  (en_fkeys e = true -> forall f, In f (fkeys_of d) -> ~ D (fk_table f)) ->
  has_columns db t (map col_name (tb_columns s)) ->
  (forall c, column_stays drop dest t c -> exists col, In col (tb_columns d) /\ col_name col = c /\ col_generated col = false /\ col_expr col = []) ->
  run_all e (copy_stmts s d) db = Some db' ->
  good e D db' /\ data_stays drop dest db db' /\ others t db db'.
Proof.
  intros e D drop dest s d db db' G t Dt Dn K (x0 & Fx0 & Cx0) S H. unfold copy_stmts in H. fold t in H. cbn zeta in H.
  set (t' := t ++ B"_new") in *.
  match type of H with context [QCopyRows _ _ ?c] => set (cols := c) in * end.
  assert (Nt : t' <> t) by apply new_name.
  apply run_app in H. destruct H as (m & H & Hi). apply run_none in Hi.
  2: { intros st Hst. apply in_map_iff in Hst. destruct Hst as (i & <- & _). reflexivity. }
  subst m.
  apply run_step in H. destruct H as (m1 & E1 & H). apply run_step in H. destruct H as (m2 & E2 & H).
  apply run_step in H. destruct H as (m3 & E3 & H). apply run_step in H. destruct H as (m4 & E4 & H). cbn in H. injection H as ->.
  cbn [effect bare snd] in E1. destruct (sfind db t') as [|] eqn:Fn; [discriminate|]. injection E1 as <-.
  set (new := STable t' _ _ _ []) in E2.
  cbn [effect bare snd] in E2. rewrite !sfind_app, Fx0, Fn in E2.
  assert (Fnew : sfind [new] t' = Some new) by (cbn; rewrite beqb_refl; reflexivity). rewrite Fnew in E2. injection E2 as <-.
  rewrite (update_last db new _ Fn) in E3.
  set (new2 := with_rows new _) in E3.
  assert (G2 : good e D (db ++ [new2])).
  { apply good_create; [exact G|exact Fn|]. intros V _ f Hf. exact (K V f Hf). }
  cbn [effect bare snd] in E3. rewrite sfind_app, Fx0 in E3.
  assert (Nx : st_name x0 = t) by exact (proj2 (sfind_in _ _ _ Fx0)).
  apply drop_quiet in E3; [|rewrite Nx; exact (good_quiet _ _ _ _ G2 Dt)]. rewrite Nx in E3. subst m3.
  cbn [effect bare snd] in E4. destruct (sfind (sremove (db ++ [new2]) t) t') as [|] eqn:F4; [|discriminate].
  destruct (sfind (sremove (db ++ [new2]) t) t) as [|] eqn:F5; [discriminate|]. injection E4 as <-.
  assert (F6 : sfind (sremove (db ++ [new2]) t) t' = Some new2).
  { rewrite sfind_remove, sfind_app, Fn. destruct (beqb_spec t t'); [congruence|]. cbn. rewrite beqb_refl. reflexivity. }
  assert (O : others t db (map (renamed t' t) (sremove (db ++ [new2]) t))).
  { intros n x Nn Fx. exists (renamed t' t x). split; [|split; reflexivity].
    assert (n <> t') by (intro Z; congruence).
    rewrite sfind_renamed by assumption. destruct (beqb_spec t n); [congruence|].
    rewrite sfind_remove, sfind_app, Fx. destruct (beqb_spec t n); [congruence|reflexivity]. }
  split; [|split; [|exact O]].
  - destruct G2 as (G21 & G22). split; [apply nodup_renamed; [apply nodup_filter; exact G21|exact F5]|].
    intros V y f Hy R Hf. apply in_map_iff in Hy. destruct Hy as (z & <- & Hz). apply filter_In in Hz. destruct Hz as (Hz & _).
    cbn in R, Hf. apply in_map_iff in Hf. destruct Hf as (g & Eg & Hg). pose proof (G22 V z g Hz R Hg) as Q.
    destruct (beqb_spec (fk_table g) t') as [Z|Z]; [exfalso; apply Q; rewrite Z; exact Dn|]. rewrite <- Eg. exact Q.
  - intros n x Fx Sn. destruct (beqb_spec n t) as [->|Nn].
    + rewrite Fx0 in Fx. injection Fx as <-. exists (renamed t' t new2). split.
      * rewrite sfind_renamed by (assumption || congruence). rewrite beqb_refl, F6. reflexivity.
      * split.
        -- cbn [renamed st_rows new2 with_rows new app].
           assert (Q : forall c, In c (st_columns x0) -> column_stays drop dest t c -> existsb (beqb c) cols = true).
           { intros c Hc Pc. apply existsb_exists. exists c. split; [|apply beqb_refl]. unfold cols. apply filter_In. split; [exact (Cx0 c Hc)|].
             apply existsb_exists. exists c. split; [|apply beqb_refl].
             destruct (S c Pc) as (col & Hcol & <- & Gc & Ec). apply in_map. apply filter_In. split; [exact Hcol|]. rewrite Gc, Ec. reflexivity. }
           clear - Q. generalize (st_rows x0) as rows. intro rows. induction rows as [|r rows IH]; cbn; constructor; [|exact IH].
           intros c Hc Pc. unfold copied_row. rewrite (Q c Hc Pc). reflexivity.
        -- intros c Hc Pc. cbn. destruct (S c Pc) as (col & Hcol & <- & _). apply in_map. exact Hcol.
    + destruct (O n x Nn Fx) as (y & Fy & Sy). exists y. split; [exact Fy|apply same_stays; exact Sy].
Qed.

(** Columns that are dropped and added. *)
Lemma others_refl : forall t db, others t db db.
Proof. intros t db n x _ H. exists x. split; [exact H|split; reflexivity]. Qed.
Lemma others_trans : forall t a b c, others t a b -> others t b c -> others t a c.
Proof.
  intros t a b c H1 H2 n x Nn H. destruct (H1 n x Nn H) as (y & Hy & C1 & R1). destruct (H2 n y Nn Hy) as (z & Hz & C2 & R2).
  exists z. split; [exact Hz|split; congruence].
Qed.
Lemma good_update : forall e D db t f, good e D db ->
  (forall x, st_name (f x) = st_name x /\ st_fkeys (f x) = st_fkeys x /\ (st_rows x = [] -> st_rows (f x) = [])) -> good e D (supdate db t f).
Proof.
  intros e D db t f (G1 & G2) F. split; [rewrite update_names; [exact G1|intro x; apply F]|].
  intros V x k Hx R Hk. apply in_map_iff in Hx. destruct Hx as (y & <- & Hy). destruct (beqb (st_name y) t).
  - destruct (F y) as (_ & F2 & F3). rewrite F2 in Hk. apply (G2 V y k Hy); [|exact Hk]. intro Z. apply R. exact (F3 Z).
  - exact (G2 V y k Hy R Hk).
Qed.
Lemma update_others : forall t f db, (forall x, st_name (f x) = st_name x) -> others t db (supdate db t f).
Proof.
  intros t f db F n x Nn H. exists x. rewrite (sfind_update _ _ _ _ F), H. cbn. destruct (beqb_spec t n); [congruence|].
  split; [reflexivity|split; reflexivity].
Qed.
Lemma update_stays : forall drop dest t f db, (forall x, st_name (f x) = st_name x) ->
  (forall x, sfind db t = Some x -> rows_stay (column_stays drop dest t) x (f x)) -> data_stays drop dest db (supdate db t f).
Proof.
  intros drop dest t f db F R n x H _. rewrite (sfind_update _ _ _ _ F), H. cbn. destruct (beqb_spec t n) as [<-|].
  - exists (f x). split; [reflexivity|exact (R x H)].
  - exists x. split; [reflexivity|apply rows_stay_refl].
Qed.
Lemma run_drop_columns : forall e D drop dest t (cs : list column) db db', good e D db ->
  (forall c, In c cs -> ~ column_stays drop dest t (col_name c)) ->
  run_all e (map (fun c => QDropColumn (bare t) (col_name c)) cs) db = Some db' ->
  good e D db' /\ data_stays drop dest db db' /\ others t db db'.
Proof.
  intros e D drop dest t cs. induction cs as [|c cs IH]; intros db db' G S H.
  - cbn in H. injection H as <-. split; [exact G|split; [apply data_stays_refl|apply others_refl]].
  - cbn [map] in H. apply run_step in H. destruct H as (m & E & H). cbn [effect bare snd] in E.
    destruct (sfind db t) as [x|] eqn:F; [|discriminate]. injection E as <-.
    match type of H with run_all _ _ (supdate db t ?g) = _ => set (f := g) in * end.
    apply IH in H; [|apply good_update; [exact G|intro y; repeat split; auto]|intros k Hk; apply S; right; exact Hk].
    destruct H as (G' & S' & O'). split; [exact G'|]. split.
    + eapply data_stays_trans; [|exact S']. apply update_stays; [reflexivity|]. intros y _. split.
      * cbn. generalize (st_rows y). intro l. induction l; constructor; auto.
      * intros k Hk Pk. cbn. apply filter_In. split; [exact Hk|]. destruct (beqb_spec k (col_name c)) as [->|]; [|reflexivity].
        exfalso. exact (S c (or_introl eq_refl) Pk).
    + eapply others_trans; [|exact O']. apply update_others. reflexivity.
Qed.
Lemma run_add_columns : forall e D drop dest t (cs : list column) db db', good e D db ->
  run_all e (map (QAddColumn (bare t)) cs) db = Some db' ->
  good e D db' /\ data_stays drop dest db db' /\ others t db db'.
Proof.
  intros e D drop dest t cs. induction cs as [|c cs IH]; intros db db' G H.
  - cbn in H. injection H as <-. split; [exact G|split; [apply data_stays_refl|apply others_refl]].
  - cbn [map] in H. apply run_step in H. destruct H as (m & E & H). cbn [effect bare snd] in E.
    destruct (sfind db t) as [x|] eqn:F; [|discriminate]. destruct (existsb (beqb (col_name c)) (st_columns x)) eqn:X; [discriminate|]. injection E as <-.
    match type of H with run_all _ _ (supdate db t ?g) = _ => set (f := g) in * end.
    apply IH in H.
    2: { apply good_update; [exact G|]. intro y. repeat split. cbn. intros ->. reflexivity. }
    destruct H as (G' & S' & O'). split; [exact G'|]. split.
    + eapply data_stays_trans; [|exact S']. apply update_stays; [reflexivity|]. intros y Fy. rewrite F in Fy. injection Fy as <-. split.
      * cbn [f st_rows]. generalize (st_rows x). intro l. induction l as [|r l IHl]; cbn [map]; constructor; [|exact IHl].
        intros k Hk Pk. cbn. destruct (beqb_spec k (col_name c)) as [->|]; [|reflexivity].
        assert (Z : existsb (beqb (col_name c)) (st_columns x) = true) by (apply existsb_exists; exists (col_name c); split; [exact Hk|apply beqb_refl]).
        congruence.
      * intros k Hk _. cbn. apply in_app_iff. left. exact Hk.
    + eapply others_trans; [|exact O']. apply update_others. reflexivity.
Qed.

(** ** One table *)
Definition alter_fits (e : env) (D : bytes -> Prop) (drop : bool) (dest : catalog) (p : sqlite_alter * bool) : Prop :=
  let '(a, b) := p in let d := sa_dest a in let t := tb_name d in
  (b = true -> D t /\ D (t ++ B"_new") /\ (en_fkeys e = true -> forall f, In f (fkeys_of d) -> ~ D (fk_table f))
     /\ forall c, column_stays drop dest t c -> exists col, In col (tb_columns d) /\ col_name col = c /\ col_generated col = false /\ col_expr col = [])
  /\ (forall c, In c (sa_drop_columns a) -> ~ column_stays drop dest t (col_name c)).
Lemma run_alter : forall e D drop dest a b db db', good e D db -> alter_fits e D drop dest (a, b) ->
  has_columns db (tb_name (sa_dest a)) (map col_name (tb_columns (sa_src a))) ->
  run_all e (alter_stmts_sqlite a b) db = Some db' ->
  good e D db' /\ data_stays drop dest db db' /\ others (tb_name (sa_dest a)) db db'.
Proof.
  intros e D drop dest a b db db' G (F1 & F2) C H. unfold alter_stmts_sqlite in H. destruct b.
  - destruct (F1 eq_refl) as (D1 & D2 & K & S). exact (run_copy _ _ _ _ _ _ _ _ G D1 D2 K C S H).
  - clear F1. apply run_app in H. destruct H as (m1 & H1 & H). apply run_none in H1.
    2: { intros s Hs. apply in_map_iff in Hs. destruct Hs as (i & <- & _). reflexivity. }
    subst m1. apply run_app in H. destruct H as (m2 & H2 & H). apply run_app in H. destruct H as (m3 & H3 & H). apply run_none in H.
    2: { intros s Hs. apply in_map_iff in Hs. destruct Hs as (i & <- & _). reflexivity. }
    subst m3. destruct (run_drop_columns _ _ _ _ _ _ _ _ G F2 H2) as (G2 & S2 & O2).
    destruct (run_add_columns _ D drop dest _ _ _ _ G2 H3) as (G3 & S3 & O3).
    split; [exact G3|]. split; [exact (data_stays_trans _ _ _ _ _ S2 S3)|exact (others_trans _ _ _ _ O2 O3)].
Qed.
Lemma run_alters : forall e D drop dest l db db', good e D db ->
  Forall (alter_fits e D drop dest) l -> NoDup (map (fun p : sqlite_alter * bool => tb_name (sa_dest (fst p))) l) ->
  (forall a b, In (a, b) l -> has_columns db (tb_name (sa_dest a)) (map col_name (tb_columns (sa_src a)))) ->
  run_all e (flat_map (fun '(a, b) => alter_stmts_sqlite a b) l) db = Some db' ->
  data_stays drop dest db db'.
Proof.
  intros e D drop dest l. induction l as [|[a b] l IH]; intros db db' G F N C H.
  - cbn in H. injection H as <-. apply data_stays_refl.
  - cbn [flat_map] in H. apply run_app in H. destruct H as (m & H1 & H). inversion F as [|? ? F1 F2]; subst. cbn in N. inversion N as [|? ? N1 N2]; subst.
    destruct (run_alter _ _ _ _ _ _ _ _ G F1 (C a b (or_introl eq_refl)) H1) as (G' & S' & O').
    eapply data_stays_trans; [exact S'|]. apply IH; [exact G'|exact F2|exact N2| |exact H].
    intros a' b' Hp. destruct (C a' b' (or_intror Hp)) as (x & Fx & Cx).
    assert (Nn : tb_name (sa_dest a') <> tb_name (sa_dest a)).
    { intro Z. apply N1. rewrite <- Z. apply (in_map (fun p : sqlite_alter * bool => tb_name (sa_dest (fst p))) _ (a', b') Hp). }
    destruct (O' _ _ Nn Fx) as (y & Fy & Cy & _). exists y. split; [exact Fy|]. intros c Hc. rewrite Cy in Hc. exact (Cx c Hc).
Qed.

(** ** The whole migration *)
Definition plan_fits (drop : bool) (dest : catalog) (db : sdb) (p : sqlite_plan) : Prop :=
  (forall t, In t (sp_drop_tables p) -> ~ table_stays drop dest (tb_name t))
  /\ NoDup (map (fun a => tb_name (sa_dest a)) (sp_alters p))
  /\ forall a, In a (sp_alters p) ->
       (forall t, In t (sp_drop_tables p) -> tb_name t <> tb_name (sa_dest a))
       /\ has_columns db (tb_name (sa_dest a)) (map col_name (tb_columns (sa_src a)))
       /\ (forall c, In c (sa_drop_columns a) -> ~ column_stays drop dest (tb_name (sa_dest a)) (col_name c))
       /\ (copied a = Ok true -> forall c, column_stays drop dest (tb_name (sa_dest a)) c ->
             exists col, In col (tb_columns (sa_dest a)) /\ col_name col = c /\ col_generated col = false /\ col_expr col = []).
Lemma pair_alters : forall l r, flatr (fun a => bindr (copied a) (fun b => Ok [(a, b)])) l = Ok r ->
  map fst r = l /\ forall a b, In (a, b) r -> copied a = Ok b.
Proof.
  intros l. induction l as [|a l IH]; intros r H; cbn in H.
  - injection H as <-. split; [reflexivity|intros a b []].
  - destruct (copied a) as [b| |] eqn:C; cbn in H; try discriminate.
    destruct (flatr _ l) as [r'| |]; cbn in H; try discriminate. injection H as <-. destruct (IH r' eq_refl) as (I1 & I2). split.
    + cbn. rewrite I1. reflexivity.
    + intros a' b' [E|E]; [injection E as <- <-; exact C|exact (I2 a' b' E)].
Qed.
Theorem plan_keeps : forall e drop dest db db' p l, NoDup (map st_name db) -> plan_fits drop dest db p ->
  sqlite_stmts p = Ok l -> calm e l db -> run_all e l db = Some db' -> data_stays drop dest db db'.
Proof.
  intros e drop dest db db' p l N (P1 & P2 & P3) L C H. unfold sqlite_stmts in L.
  destruct (flatr _ (sp_alters p)) as [alters| |] eqn:FA; try discriminate. cbn [bindr] in L.
  apply pair_alters in FA. destruct FA as (A1 & A2). injection L as L.
  set (pre := if existsb snd alters then [QPragma true] else []) in L. set (post := if existsb snd alters then [QPragma false] else []) in L.
  assert (G : good e (touched l) db).
  { split; [exact N|]. intros V x f Hx R Hf. destruct C as [C|(C & _)]; [congruence|]. exact (C x f Hx R Hf). }
  rewrite <- L in H. apply run_app in H. destruct H as (m0 & H0 & H). apply run_none in H0.
  2: { unfold pre. destruct (existsb snd alters); [intros s [<-|[]]; reflexivity|intros s []]. }
  subst m0. apply run_app in H. destruct H as (m1 & H1 & H). apply run_app in H. destruct H as (m2 & H2 & H). apply run_app in H.
  destruct H as (m3 & H3 & H). apply run_none in H.
  2: { unfold post. destruct (existsb snd alters); [intros s [<-|[]]; reflexivity|intros s []]. }
  subst m3.
  assert (InAlt : forall a b s, In (a, b) alters -> In s (alter_stmts_sqlite a b) -> In s l).
  { intros a b s Hab Hs. rewrite <- L. apply in_app_iff. right. apply in_app_iff. right. apply in_app_iff. right. apply in_app_iff. left.
    apply in_flat_map. exists (a, b). split; [exact Hab|exact Hs]. }
  destruct (run_drops e (touched l) drop dest (sp_drop_tables p) db m1 G) as (G1 & S1 & F1); [|exact H1|].
  { intros t Ht. split; [|exact (P1 t Ht)]. left. exists (bare (tb_name t)). split; [|reflexivity]. rewrite <- L.
    apply in_app_iff. right. apply in_app_iff. left. apply (in_map (fun t => QDropTable (bare (tb_name t)))). exact Ht. }
  destruct (run_creates e (touched l) drop dest _ _ _ G1 H2) as (G2 & S2 & F2).
  eapply data_stays_trans; [exact S1|]. eapply data_stays_trans; [exact S2|].
  apply (run_alters e (touched l) drop dest alters); [exact G2| | | |exact H3].
  - apply Forall_forall. intros [a b] Hab.
    assert (Ha : In a (sp_alters p)) by (rewrite <- A1; exact (in_map fst _ _ Hab)).
    destruct (P3 a Ha) as (_ & _ & Q3 & Q4). split; [|exact Q3]. intros ->.
    assert (I : forall s, In s (copy_stmts (sa_src a) (sa_dest a)) -> In s l) by (intros s Hs; exact (InAlt a true s Hab Hs)).
    split; [|split; [|split]].
    + left. eexists. split; [apply I; right; right; left; reflexivity|reflexivity].
    + right. eexists. eexists. split; [apply I; right; right; right; left; reflexivity|reflexivity].
    + intros V f Hf. destruct C as [C|(_ & C)]; [congruence|].
      refine (C _ _ f _ _ (I _ (or_introl eq_refl)) (I _ (or_intror (or_introl eq_refl))) _). exact Hf.
    + exact (Q4 (A2 a true Hab)).
  - rewrite <- A1, map_map in P2. exact P2.
  - intros a b Hab. assert (Ha : In a (sp_alters p)) by (rewrite <- A1; exact (in_map fst _ _ Hab)).
    destruct (P3 a Ha) as (Q1 & (x & Fx & Cx) & _). exists x. split; [|exact Cx]. apply F2. rewrite F1 by exact Q1. exact Fx.
Qed.

(** ** The plan *)
Lemma pick_map : forall {A} (f : A -> A) name ign (l : list A) n, (forall a, name (f a) = name a) -> (forall a, ign (f a) = ign a) ->
  pick name ign (map f l) n = option_map f (pick name ign l n).
Proof.
  intros A f name ign l n Hn Hi. unfold pick, last_named. rewrite <- map_rev. generalize (rev l). intro r.
  induction r as [|a r IH]; [reflexivity|]. cbn [map find]. rewrite Hn. destruct (beqb (name a) n); [|exact IH].
  rewrite Hi. destruct (ign a); reflexivity.
Qed.
Lemma named_ignored : forall t, tb_ignore (named_table t) = tb_ignore t.
Proof. intro t. unfold named_table. destruct (is_virtual t); reflexivity. Qed.
Lemma named_columns : forall t, tb_columns (named_table t) = tb_columns t.
Proof. intro t. unfold named_table. destruct (is_virtual t); reflexivity. Qed.
Lemma find_the : forall c d ds n, ct_schemas c = d :: ds -> unique_tables (ct_schemas c) ->
  find_table (named_schema d) n = option_map named_table (the_table c n).
Proof.
  intros c d ds n E (_ & U). rewrite E in U. destruct (U d (or_introl eq_refl)) as (U1 & _). unfold find_table. cbn [named_schema with_tables sc_tables].
  rewrite (pick_map _ _ _ _ _ named_table_name named_ignored). unfold the_table, the_schema. rewrite E. rewrite (pick_the _ _ _ _ U1). reflexivity.
Qed.
Lemma copied_keep : forall u t a, In a (sqlite_alters false u t) -> copied a = Ok false.
Proof.
  intros u t a H. unfold sqlite_alters in H. destruct (_ && _ && _ && _ && _ && _); [contradiction|].
  destruct (none (only_cols t u) && none (only_ixs t u)); [contradiction|]. destruct H as [<-|[]]. reflexivity.
Qed.
Lemma alters_shape : forall drop u t a, In a (sqlite_alters drop u t) ->
  sa_src a = u /\ sa_dest a = t /\ sa_drop_columns a = (if drop then only_cols u t else []).
Proof.
  intros drop u t a H. unfold sqlite_alters in H. destruct (_ && _ && _ && _ && _ && _); [contradiction|].
  destruct drop; [|destruct (_ && _); [contradiction|]]; destruct H as [<-|[]]; repeat split.
Qed.
Lemma alters_once : forall drop u t, (List.length (sqlite_alters drop u t) <= 1)%nat.
Proof.
  intros drop u t. unfold sqlite_alters. destruct (_ && _ && _ && _ && _ && _); [cbn; lia|].
  destruct drop; [cbn; lia|destruct (_ && _); cbn; lia].
Qed.
Lemma altered_once : forall drop s (l : list table), NoDup (map tb_name l) ->
  NoDup (map (fun a => tb_name (sa_dest a)) (flat_map (fun t => match find_table s (tb_name t) with None => [] | Some u => sqlite_alters drop u t end) l)).
Proof.
  intros drop s l. induction l as [|t l IH]; intro N; cbn [flat_map map]; [constructor|]. cbn in N. inversion N as [|? ? N1 N2]; subst.
  rewrite map_app. apply NoDup_join; [|exact (IH N2)|].
  - destruct (find_table s (tb_name t)) as [u|]; [|constructor]. pose proof (alters_once drop u t) as L.
    destruct (sqlite_alters drop u t) as [|a [|b r]]; cbn in *; [constructor|repeat constructor; intros []|lia].
  - intros n H1 H2. apply N1. apply in_map_iff in H1. destruct H1 as (a & <- & Ha). destruct (find_table s (tb_name t)) as [u|]; [|contradiction].
    apply alters_shape in Ha. destruct Ha as (_ & Ea & _). rewrite Ea in H2. apply in_map_iff in H2. destruct H2 as (b & E & Hb).
    apply in_flat_map in Hb. destruct Hb as (t2 & Ht2 & Hb). destruct (find_table s (tb_name t2)) as [u2|]; [|contradiction].
    apply alters_shape in Hb. destruct Hb as (_ & Hb & _). rewrite Hb in E. rewrite <- E. apply in_map. exact Ht2.
Qed.

Theorem plan_ok : forall src dest drop db p, unique_tables (ct_schemas src) -> sqlite_names (ct_schemas dest) -> agrees db src ->
  new_sqlite_migration src dest drop = Ok p -> plan_fits drop dest db p.
Proof.
  intros src dest drop db p Us (Ud & Nd) (_ & Ag) H. unfold agrees, the_schema in Ag.
  destruct (ct_schemas src) as [|s ss] eqn:Es, (ct_schemas dest) as [|d ds] eqn:Ed.
  - unfold new_sqlite_migration in H. rewrite Es, Ed in H. injection H as <-. split; [|split]; cbn; [intros t []|constructor|intros a []].
  - unfold new_sqlite_migration in H. rewrite Es, Ed in H. injection H as <-. split; [|split]; cbn; [intros t []|constructor|intros a []].
  - unfold new_sqlite_migration in H. rewrite Es, Ed in H. injection H as <-. split; [|split]; cbn; [|constructor|intros a []].
    intros t Ht. destruct drop; [|contradiction]. intros [Z|Z]; [discriminate|]. apply Z. unfold the_table, the_schema. rewrite Ed. reflexivity.
  - rewrite <- Es in Us. rewrite <- Ed in Ud. rewrite (sqlite_plan_ok src dest drop s ss d ds Es Ed Us Ud) in H. injection H as <-.
    assert (Fd : forall n, find_table (named_schema d) n = option_map named_table (the_table dest n)) by (intro n; exact (find_the dest d ds n Ed Ud)).
    assert (Fs : forall n, find_table (named_schema s) n = option_map named_table (the_table src n)) by (intro n; exact (find_the src s ss n Es Us)).
    assert (Gone : forall t, In t (dropped_tables (named_schema s) (named_schema d)) -> the_table dest (tb_name t) = None).
    { intros t Ht. apply filter_In in Ht. destruct Ht as (_ & Ht). apply andb_true_iff in Ht. destruct Ht as (_ & Ht). rewrite Fd in Ht.
      destruct (the_table dest (tb_name t)); [discriminate|reflexivity]. }
    pose proof Ud as Ud'. rewrite Ed in Ud'. destruct Ud' as (_ & Ud1). destruct (Ud1 d (or_introl eq_refl)) as (Ud2 & _).
    split; [|split]; cbn [sp_drop_tables sp_alters].
    + intros t Ht. destruct drop; [|contradiction]. intros [Z|Z]; [discriminate|]. exact (Z (Gone t Ht)).
    + apply altered_once. cbn [named_schema with_tables sc_tables]. clear - Ud2.
      induction (sc_tables d) as [|t l IH]; cbn; [constructor|]. cbn in Ud2. inversion Ud2 as [|? ? N1 N2]; subst.
      destruct (ordinary (named_table t)); cbn; [|exact (IH N2)]. constructor; [|exact (IH N2)]. rewrite named_table_name. intro H.
      apply N1. apply in_map_iff in H. destruct H as (x & E & H). apply filter_In in H. destruct H as (H & _).
      apply in_map_iff in H. destruct H as (y & <- & H). rewrite <- E, named_table_name. apply in_map. exact H.
    + intros a Ha. apply in_flat_map in Ha. destruct Ha as (t & Ht & Ha). rewrite Fs in Ha.
      destruct (the_table src (tb_name t)) as [u|] eqn:Fu; [|contradiction]. cbn [option_map] in Ha.
      pose proof (alters_shape _ _ _ _ Ha) as (-> & -> & ->).
      apply filter_In in Ht. destruct Ht as (Ht & Or). cbn [named_schema with_tables sc_tables] in Ht. apply in_map_iff in Ht.
      destruct Ht as (t0 & <- & Ht). unfold ordinary in Or. rewrite named_ignored in Or. rewrite named_table_name in *.
      assert (It : tb_ignore t0 = false) by (destruct (tb_ignore t0); [discriminate|reflexivity]).
      assert (Ft : the_table dest (tb_name t0) = Some t0).
      { unfold the_table, the_schema. rewrite Ed. rewrite <- (pick_the _ _ _ _ Ud2). apply pick_unique; assumption. }
      split; [|split; [|split]].
      * intros t2 Ht2 E. destruct drop; [|contradiction]. apply Gone in Ht2. rewrite E, Ft in Ht2. discriminate.
      * rewrite named_columns. unfold the_table in Fu. unfold the_schema in Fu. rewrite Es in Fu. apply find_some in Fu. destruct Fu as (Hu & Eu).
        apply andb_true_iff in Eu. destruct Eu as (Eu & _). destruct (beqb_spec (tb_name u) (tb_name t0)) as [Eu'|]; [|discriminate].
        destruct (Ag u Hu) as (x & Fx & Cx). rewrite Eu' in Fx. exists x. auto.
      * intros c Hc [Z|Z]; [subst drop; contradiction|]. destruct drop; [|contradiction]. destruct Z as (t2 & col & Ft2 & Fc & _).
        rewrite Ft in Ft2. injection Ft2 as <-. apply gone_in in Hc. destruct Hc as (_ & _ & Hc). unfold find_col in Hc. rewrite named_columns in Hc.
        destruct (Nd d t0 (or_introl eq_refl) Ht) as (Nc & _). rewrite (pick_the _ _ _ _ Nc) in Hc. unfold the_column in Fc. congruence.
      * intros Cp c [Z|Z]; [subst drop; rewrite (copied_keep _ _ _ Ha) in Cp; discriminate|].
        destruct Z as (t2 & col & Ft2 & Fc & Gc & Ec). rewrite Ft in Ft2. injection Ft2 as <-. rewrite named_columns.
        unfold the_column in Fc. apply find_some in Fc. destruct Fc as (Hc & Bc). apply andb_true_iff in Bc. destruct Bc as (Bc & _).
        destruct (beqb_spec (col_name col) c); [|discriminate]. exists col. auto.
Qed.

Theorem migration_keeps : forall e flt prefix src dest drop files warnings db db',
  unique_tables (ct_schemas src) -> sqlite_names (ct_schemas dest) -> agrees db src ->
  results SQLite flt prefix src dest drop = Ok (files, warnings) ->
  calm e (forward files) db -> run_all e (forward files) db = Some db' -> data_stays drop dest db db'.
Proof.
  intros e flt prefix src dest drop files warnings db db' Us Ud Ag R C H. cbn [results] in R.
  destruct (new_sqlite_migration src dest drop) as [p| |] eqn:P; try discriminate. cbn [bindr] in R.
  destruct (sqlite_stmts p) as [l| |] eqn:L; try discriminate. cbn [bindr] in R. injection R as R _.
  assert (E : forward files = l).
  { rewrite <- R. destruct l as [|s l]; [reflexivity|]. cbn. rewrite app_nil_r. reflexivity. }
  rewrite E in C, H. exact (plan_keeps _ _ _ _ _ _ _ (proj1 Ag) (plan_ok _ _ _ _ _ Us Ud Ag P) L C H).
Qed.

(** A database with the tables of a catalog. *)
Definition rows_of (c : catalog) (rows : bytes -> list row) : sdb :=
  map (fun t => STable (tb_name t) (map col_name (tb_columns t)) (key_of t) (fkeys_of t) (rows (tb_name t))) (the_schema c).
Lemma rows_agree : forall c rows, NoDup (map tb_name (the_schema c)) -> agrees (rows_of c rows) c.
Proof.
  intros c rows N. split.
  - unfold rows_of. rewrite map_map. exact N.
  - intros t Ht. exists (STable (tb_name t) (map col_name (tb_columns t)) (key_of t) (fkeys_of t) (rows (tb_name t))). split; [|auto].
    unfold rows_of. set (f := fun t => STable _ _ _ _ _). change (sfind (map f (the_schema c)) (st_name (f t)) = Some (f t)).
    apply sfind_unique; [rewrite map_map; exact N|apply in_map; exact Ht].
Qed.
