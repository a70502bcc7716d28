(** Proofs about reading table structs: modifiers that declare keys and indexes with new names
    add the keys and indexes they were written for. *)
From Coq Require Import Lia.
From Verif Require Import GoStr GoStrFacts ModelCatalog ModelCache SpecCache CacheFacts CopyFacts ModelDdl DdlFacts
  ModelModifier SpecModifier ModifierFacts ModelDiff ModelDiffSql ModelGoTag ModelStructs ModelParser ParserFacts SpecStructs SpecSame.

Local Arguments PRIMARY_KEY : simpl never.
Local Arguments FOREIGN_KEY : simpl never.
Local Arguments UNIQUE : simpl never.
Local Arguments generate_name : simpl never.

(** ** Parsed values *)
Lemma parsed_value_eq : forall n v subs, plain_value v -> Forall printable subs ->
  exists raw, parsed_value (parsed (Mod [] n [] v subs)) = Ok (Mod [] n raw (shown_value v subs) (map parsed subs)).
Proof.
  intros n v subs Hv Hs. unfold parsed_value.
  assert (P : v <> [] \/ subs <> [] ->
     parse_raw_value (Mod [] n (value_text v ++ texts subs) [] [])
     = Some (Ok (Mod [] n (value_text v ++ texts subs) (shown_value v subs) (map parsed subs)))).
  { intros Hne. unfold parse_raw_value. cbn [m_raw m_dialects m_name].
    pose proof (raw_ne _ _ Hne) as Hr. pose proof (parse_shown _ _ Hv Hne) as E.
    destruct (value_text v ++ texts subs) as [|y l]; [congruence|].
    rewrite E, new_texts; auto. }
  unfold parsed. cbn [raw_text m_name]. destruct v as [|a v], subs as [|m subs].
  - exists []. reflexivity.
  - rewrite orb_true_r. rewrite P by (right; discriminate). eexists. reflexivity.
  - destruct (has_blank (a :: v)) eqn:Eb; cbn [orb].
    + rewrite P by (left; discriminate). eexists. reflexivity.
    + assert (Et : value_text (a :: v) ++ texts [] = a :: v).
      { cbn [value_text]. rewrite Eb. apply app_nil_r. }
      exists (a :: v). rewrite <- Et at 1. rewrite P by (left; discriminate). rewrite Et. reflexivity.
  - rewrite orb_true_r. rewrite P by (left; discriminate). eexists. reflexivity.
Qed.

(** ** New objects *)
Definition more (t : table) (ks : list constraint) (xs : list index) : table :=
  Table (tb_schema t) (tb_name t) (tb_sql t) (tb_virtual t) (tb_columns t) (tb_constraints t ++ ks) (tb_indexes t ++ xs) (tb_ignore t).
Lemma more_more : forall t ks xs ks' xs', more (more t ks xs) ks' xs' = more t (ks ++ ks') (xs ++ xs').
Proof. intros. unfold more. cbn. rewrite !app_assoc. reflexivity. Qed.
Lemma more_nil : forall t, more t [] [] = t.
Proof. intros []. unfold more. cbn. rewrite !app_nil_r. reflexivity. Qed.

Definition keeps (p p' : parser) : Prop := pa_explicit p' = pa_explicit p /\ pa_reports p' = pa_reports p.
Definition adds (p : parser) (r : result parser) (ks : list constraint) (xs : list index) : Prop :=
  exists p', r = Ok p' /\ pa_table p' = more (pa_table p) ks xs /\ keeps p p'.

Lemma key_new : forall p n ty cols, pinv (pa_cache p) (pa_table p) -> n <> [] ->
  ~ In n (map con_name (tb_constraints (pa_table p))) ->
  exists c, get_or_create_constraint (pa_cache p) (pa_table p) n ty cols
    = Ok (more (pa_table p) [new_constraint (pa_table p) n ty cols] [], c, List.length (tb_constraints (pa_table p))).
Proof.
  intros p n ty cols (_ & (G & _) & _) Nn F. unfold get_or_create_constraint, get_or_create.
  destruct (ca_constraints (pa_cache p) _) as [i|] eqn:E.
  - destruct (G _ _ E) as (a & Ha & Na & _). exfalso. apply F. rewrite <- Na. apply in_map. eapply nth_error_In. exact Ha.
  - cbn [at_pos bindr]. eexists. unfold more, with_constraints. rewrite app_nil_r. reflexivity.
Qed.
Lemma index_new : forall p n cols, pinv (pa_cache p) (pa_table p) ->
  ~ In n (map ix_name (tb_indexes (pa_table p))) ->
  exists c, get_or_create_index (pa_cache p) (pa_table p) n cols
    = Ok (more (pa_table p) [] [Index (tb_schema (pa_table p)) (tb_name (pa_table p)) n [] false cols [] [] [] [] [] false], c,
          List.length (tb_indexes (pa_table p))).
Proof.
  intros p n cols (_ & _ & (G & _) & _) F. unfold get_or_create_index, get_or_create.
  destruct (ca_indexes (pa_cache p) _) as [i|] eqn:E.
  - destruct (G _ _ E) as (a & Ha & Na & _). exfalso. apply F. rewrite <- Na. apply in_map. eapply nth_error_In. exact Ha.
  - cbn [at_pos bindr]. eexists. unfold more, with_indexes. rewrite app_nil_r. reflexivity.
Qed.
Lemma change_last : forall {A} (l : list A) a f, change_nth (List.length l) f (l ++ [a]) = l ++ [f a].
Proof. intros A l a f. unfold change_nth. rewrite nth_last. apply set_last. Qed.
Lemma change_key : forall p t k xs f, pa_table p = more t [k] xs ->
  pa_table (on_constraints (List.length (tb_constraints t)) f p) = more t [f k] xs.
Proof. intros p t k xs f E. unfold on_constraints. cbn [pa_table with_table]. rewrite E. unfold more, with_constraints. cbn. rewrite change_last. reflexivity. Qed.
Lemma change_index : forall p t ks x f, pa_table p = more t ks [x] ->
  pa_table (on_indexes (List.length (tb_indexes t)) f p) = more t ks [f x].
Proof. intros p t k xs f E. unfold on_indexes. cbn [pa_table with_table]. rewrite E. unfold more, with_indexes. cbn. rewrite change_last. reflexivity. Qed.

(** ** Columns of keys *)
(** Names without commas, dots. *)
Definition plain_col (n : bytes) : Prop := n <> [] /\ ~ In ","%char n /\ ~ In "."%char n.
Lemma word_plain : forall n, go_word n -> plain_col n.
Proof.
  intros n ((c & s & E & _) & H). split; [congruence|].
  split; intro X; destruct (H _ X) as [Y|[Y|[Y|Y]]]; vm_compute in Y; discriminate.
Qed.
Lemma split_join : forall l, l <> [] -> Forall plain_col l -> split_byte ","%char (join (B",") l) = l.
Proof.
  intros l N F. change (B",") with [","%char]. apply split_byte_join; [exact N|]. eapply Forall_impl; [|exact F]. intros a (_ & H & _). exact H.
Qed.
Lemma join_own : forall l, l <> [] -> Forall plain_col l -> own_value (join (B",") l) = true.
Proof.
  intros l N F. unfold own_value. destruct F as [|a l (A1 & A2 & A3) F]; [congruence|].
  assert (Q : exists x s, join (B",") (a :: l) = x :: s /\ In x a).
  { destruct a as [|x a]; [congruence|]. exists x. destruct l as [|b l]; [eexists; split; [reflexivity|left; reflexivity]|].
    rewrite join_cons by discriminate. eexists. split; [reflexivity|left; reflexivity]. }
  destruct Q as (x & s & -> & Hx). cbn [is_empty negb andb]. apply negb_true_iff. destruct (beqb_spec (x :: s) (B".")) as [E|]; [|reflexivity].
  exfalso. injection E as -> _. contradiction.
Qed.

(** ** What is read *)
Definition index_of (d : dialect) (t : table) (x : index) : index :=
  Index (tb_schema t) (tb_name t) (index_name t x)
    (if negb (is_empty (ix_type x)) && negb (equal_fold (ix_type x) (B"BTREE")) then ix_type x else [])
    (ix_unique x) (ix_columns x) [] [] [] [] [] false.
Definition index_subs (x : index) : list modifier :=
  when_ (ix_unique x) (flag "unique")
  ++ when_ (negb (is_empty (ix_type x)) && negb (equal_fold (ix_type x) (B"BTREE"))) (raw_modifier "using" (ix_type x)).
Lemma parsed_flag : forall s, parsed (flag s) = flag s.
Proof. reflexivity. Qed.
Lemma parsed_raw : forall s raw, parsed (raw_modifier s raw) = raw_modifier s raw.
Proof. intros s [|]; reflexivity. Qed.

Definition index_sound (d : dialect) (x : index) : Prop :=
  value_ok (ix_type x)
  /\ (ix_type x = [] \/ equal_fold (ix_type x) (B"BTREE") = true \/ d = Postgres \/ d = MySQL).
Lemma index_subs_printable : forall x, value_ok (ix_type x) -> Forall printable (index_subs x).
Proof.
  intros x (V & Q). unfold index_subs. apply Forall_app. split.
  - destruct (ix_unique x); [|constructor]. constructor; [|constructor]. apply pr_value; [|split; [constructor|right; discriminate]|constructor].
    split; [discriminate|]. intros y Hy. cbn in Hy. repeat (destruct Hy as [<-|Hy]; [cbn; intuition discriminate|]). contradiction.
  - destruct (ix_type x) as [|a ty]; [constructor|]. cbn [is_empty negb andb]. destruct (negb _); [|constructor]. constructor; [|constructor].
    apply pr_raw; [|discriminate|exact V].
    split; [discriminate|]. intros y Hy. cbn in Hy. repeat (destruct Hy as [<-|Hy]; [cbn; intuition discriminate|]). contradiction.
Qed.

(** An index is added. *)
Lemma parse_index_reads : forall d columns p x v, pinv (pa_cache p) (pa_table p) -> index_sound d x ->
  ix_columns x <> [] -> Forall plain_col (ix_columns x) -> plain_value v ->
  v = join (B",") (ix_columns x) \/ v = [] /\ columns = ix_columns x ->
  ~ In (index_name (pa_table p) x) (map ix_name (tb_indexes (pa_table p))) ->
  adds p (parse_index d columns p (parsed (Mod [] (B"index") [] v (index_subs x)))) [] [index_of d (pa_table p) x].
Proof.
  intros d columns p x v I (Vt & Ht) Nc Pc Vv Hv F. unfold parse_index.
  destruct (parsed_value_eq (B"index") v (index_subs x) Vv (index_subs_printable x Vt)) as (raw & E). rewrite E. cbv zeta. cbn [m_value m_subs].
  assert (C : (if own_value (shown_value v (index_subs x)) then split_byte ","%char (shown_value v (index_subs x)) else columns) = ix_columns x).
  { destruct Hv as [Hv|(-> & ->)].
    - pose proof (join_own _ Nc Pc) as O. rewrite <- Hv in O. destruct v as [|a v]; [discriminate|]. cbn [shown_value]. rewrite O, Hv. apply split_join; assumption.
    - cbn [shown_value]. destruct (index_subs x); reflexivity. }
  rewrite C. destruct (ix_columns x) as [|c0 cs] eqn:Ec; [congruence|]. cbn [none]. rewrite <- Ec in *. clear C.
  set (n := generate_name IndexKind (tb_name (pa_table p)) (ix_columns x)). change (pa_cache (locate n p)) with (pa_cache p). change (pa_table (locate n p)) with (pa_table p).
  destruct (index_new p n (ix_columns x) I F) as (c & R). rewrite R. cbn [bindr].
  set (p1 := on_indexes _ _ _).
  assert (T1 : pa_table p1 = more (pa_table p) [] [Index (tb_schema (pa_table p)) (tb_name (pa_table p)) n [] false (ix_columns x) [] [] [] [] [] false]).
  { unfold p1. eapply eq_trans; [eapply change_index; reflexivity|reflexivity]. }
  eexists. split; [reflexivity|]. unfold index_subs. rewrite map_app, fold_left_app.
  set (p2 := fold_left _ (map parsed (when_ (ix_unique x) _)) p1).
  assert (T2 : pa_table p2 = more (pa_table p) [] [Index (tb_schema (pa_table p)) (tb_name (pa_table p)) n [] (ix_unique x) (ix_columns x) [] [] [] [] [] false] /\ keeps p p2).
  { unfold p2. destruct (ix_unique x).
    - cbn [map when_ fold_left]. rewrite parsed_flag. unfold index_sub. cbn [excluded excludes_dialect m_dialects flag m_name]. split; [|split; reflexivity].
      change (beqb (B"unique") (B"unique")) with true. cbv iota. rewrite (change_index _ _ _ _ _ T1). reflexivity.
    - split; [exact T1|split; reflexivity]. }
  destruct T2 as (T2 & K2). clearbody p2. unfold index_of, index_name. fold n.
  destruct (negb (is_empty (ix_type x)) && negb (equal_fold (ix_type x) (B"BTREE"))) eqn:U.
  2:{ cbn [map when_ fold_left]. split; [exact T2|exact K2]. }
  assert (D : d = Postgres \/ d = MySQL).
  { apply andb_true_iff in U as (U1 & U2). destruct Ht as [Z|[Z|[Z|Z]]]; auto; rewrite Z in *; discriminate. }
  cbn [map when_ fold_left]. rewrite parsed_raw. unfold index_sub. cbn [excluded excludes_dialect m_dialects raw_modifier m_name m_raw].
  change (beqb (B"using") (B"unique")) with false. change (beqb (B"using") (B"using")) with true. cbv iota.
  destruct D as [-> | ->]; (split; [rewrite (change_index _ _ _ _ _ T2); reflexivity|exact K2]).
Qed.

(** ** Keys *)
Definition rule_read (r : bytes) : bytes := if is_empty r || beqb r NO_ACTION then [] else r.
Definition deferral (c : constraint) : list modifier :=
  when_ (con_deferrable c) (if con_deferred c then flag "deferred" else flag "deferrable").
Definition schema_read (cur : bytes) (c : constraint) : bytes :=
  if negb (is_empty (con_refschema c)) && negb (beqb (con_refschema c) cur) then con_refschema c else [].
Definition key_of (d : dialect) (cur : bytes) (t : table) (c : constraint) : constraint :=
  let fk := beqb (con_type c) FOREIGN_KEY in
  Constraint (tb_schema t) (tb_name t) (key_name d t c) (con_type c) (con_columns c)
    (if fk then schema_read cur c else []) (if fk then con_reftable c else []) (if fk then con_refcolumns c else [])
    (if fk then rule_read (con_update c) else []) (if fk then rule_read (con_delete c) else [])
    [] [] [] [] [] (con_deferrable c) (con_deferred c) false false false.
Definition defers (d : dialect) (c : constraint) : Prop :=
  (con_deferrable c = true -> may_defer d = true) /\ (con_deferred c = true -> con_deferrable c = true).

Lemma flag_printable : forall s, plain_name (B s) -> printable (flag s).
Proof. intros s H. apply pr_value; [exact H|split; [constructor|right; discriminate]|constructor]. Qed.
Definition good_name (n : bytes) : bool := negb (is_empty n) && forallb (fun c => negb (existsb (ceqb c) (B" ={}:"))) n.
Lemma good_name_ok : forall n, good_name n = true -> plain_name n.
Proof.
  intros n H. apply andb_true_iff in H as (L & H). split; [destruct n; discriminate|]. rewrite forallb_forall in H. intros x Hx X. specialize (H x Hx).
  apply negb_true_iff in H. assert (E : existsb (ceqb x) (B" ={}:") = true); [|congruence]. apply existsb_exists. exists x.
  split; [exact X|destruct (ceqb_spec x x); congruence].
Qed.
Lemma deferral_printable : forall c, Forall printable (deferral c).
Proof.
  intro c. unfold deferral. destruct (con_deferrable c); [|constructor]. constructor; [|constructor].
  destruct (con_deferred c); apply flag_printable, good_name_ok; reflexivity.
Qed.

Lemma key_name_nonempty : forall d t c, key_name d t c <> [].
Proof.
  intros d t c. unfold key_name. destruct (dialect_eqb d MySQL && beqb (con_type c) PRIMARY_KEY); [discriminate|].
  apply generated_nonempty. unfold key_kind. destruct (beqb (con_type c) PRIMARY_KEY); [discriminate|]. destruct (beqb (con_type c) UNIQUE); discriminate.
Qed.
Lemma parse_key_reads : forall d cur columns p c v, pinv (pa_cache p) (pa_table p) -> defers d c ->
  con_type c = PRIMARY_KEY \/ con_type c = UNIQUE ->
  con_columns c <> [] -> Forall plain_col (con_columns c) -> plain_value v ->
  v = join (B",") (con_columns c) \/ v = [] /\ columns = con_columns c ->
  ~ In (key_name d (pa_table p) c) (map con_name (tb_constraints (pa_table p))) ->
  adds p (parse_key d columns p (parsed (Mod [] (if beqb (con_type c) UNIQUE then B"unique" else B"primarykey") [] v (deferral c))))
    [key_of d cur (pa_table p) c] [].
Proof.
  intros d cur columns p c v I (D1 & D2) Ty Nc Pc Vv Hv F. unfold parse_key.
  set (nm := if beqb (con_type c) UNIQUE then _ else _).
  destruct (parsed_value_eq nm v (deferral c) Vv (deferral_printable c)) as (raw & E). rewrite E. cbv zeta. cbn [m_value m_subs m_name].
  assert (C : (if own_value (shown_value v (deferral c)) then split_byte ","%char (shown_value v (deferral c)) else columns) = con_columns c).
  { destruct Hv as [Hv|(-> & ->)].
    - pose proof (join_own _ Nc Pc) as O. rewrite <- Hv in O. destruct v as [|a v]; [discriminate|]. cbn [shown_value]. rewrite O, Hv. apply split_join; assumption.
    - cbn [shown_value]. destruct (deferral c); reflexivity. }
  rewrite C. destruct (con_columns c) as [|c0 cs] eqn:Ec; [congruence|]. cbn [none]. rewrite <- Ec in *. clear C.
  assert (U : equal_fold UNIQUE nm = beqb (con_type c) UNIQUE) by (unfold nm; destruct Ty as [-> | ->]; reflexivity).
  assert (Tc : (if equal_fold UNIQUE nm then UNIQUE else PRIMARY_KEY) = con_type c) by (rewrite U; destruct Ty as [-> | ->]; reflexivity).
  rewrite Tc.
  assert (N : match d, equal_fold UNIQUE nm with
              | MySQL, false => B"PRIMARY"
              | _, _ => generate_name (if equal_fold UNIQUE nm then UniqueKey else PKey) (tb_name (pa_table p)) (con_columns c)
              end = key_name d (pa_table p) c).
  { rewrite U. unfold key_name, key_kind. destruct Ty as [-> | ->], d; reflexivity. }
  rewrite N. clear U Tc N. set (n := key_name d (pa_table p) c) in *.
  assert (Nn : n <> []) by apply key_name_nonempty.
  change (pa_cache (locate n p)) with (pa_cache p). change (pa_table (locate n p)) with (pa_table p).
  destruct (key_new p n (con_type c) (con_columns c) I Nn F) as (ca & R). rewrite R. cbn [bindr].
  set (p1 := on_constraints _ _ _).
  assert (T1 : pa_table p1 = more (pa_table p) [new_constraint (pa_table p) n (con_type c) (con_columns c)] []).
  { unfold p1. eapply eq_trans; [eapply change_key; reflexivity|reflexivity]. }
  assert (K1 : keeps p p1) by (split; reflexivity). clearbody p1.
  eexists. split; [reflexivity|]. unfold key_of. fold n.
  assert (FK : beqb (con_type c) FOREIGN_KEY = false) by (destruct Ty as [-> | ->]; reflexivity). rewrite FK. clear FK.
  unfold deferral. destruct (con_deferrable c).
  - specialize (D1 eq_refl). clear D2. destruct (con_deferred c); cbn [map when_ fold_left]; rewrite parsed_flag; unfold key_sub;
      cbn [excluded excludes_dialect m_dialects flag m_name];
      [change (beqb (B"deferred") (B"deferrable")) with false; change (beqb (B"deferred") (B"deferred")) with true
      |change (beqb (B"deferrable") (B"deferrable")) with true]; cbv iota; rewrite D1; (split; [|exact K1]); rewrite (change_key _ _ _ _ _ T1); reflexivity.
  - destruct (con_deferred c); [discriminate (D2 eq_refl)|]. cbn [map when_ fold_left]. split; [exact T1|exact K1].
Qed.

(** ** Foreign keys *)
Definition runs {A} (f : parser -> A -> result parser) (p : parser) (l : list A) (t : table) : Prop :=
  exists p', foldr f p l = Ok p' /\ pa_table p' = t /\ keeps p p' /\ pinv (pa_cache p') t.
Lemma keeps_trans : forall a b c, keeps a b -> keeps b c -> keeps a c.
Proof. intros a b c (H1 & H2) (H3 & H4). split; congruence. Qed.
Lemma foldr_app : forall {S A} (f : S -> A -> result S) a b s, foldr f s (a ++ b) = bindr (foldr f s a) (fun s => foldr f s b).
Proof. intros S A f. induction a as [|x a IH]; intros b s; [reflexivity|]. cbn [app foldr]. destruct (f s x); cbn [bindr]; auto. Qed.
Lemma runs_app : forall {A} (f : parser -> A -> result parser) p a b t t', runs f p a t ->
  (forall p1, pa_table p1 = t -> pinv (pa_cache p1) t -> runs f p1 b t') -> runs f p (a ++ b) t'.
Proof.
  intros A f p a b t t' (p1 & E1 & T1 & K1 & I1) H. destruct (H p1 T1 I1) as (p2 & E2 & T2 & K2 & I2).
  exists p2. rewrite foldr_app, E1. cbn [bindr]. split; [exact E2|]. split; [exact T2|]. split; [eapply keeps_trans; eassumption|exact I2].
Qed.
Lemma runs_nil : forall {A} (f : parser -> A -> result parser) p, pinv (pa_cache p) (pa_table p) -> runs f p [] (pa_table p).
Proof. intros A f p I. exists p. split; [reflexivity|]. split; [reflexivity|]. split; [split; reflexivity|exact I]. Qed.
Lemma runs_one : forall {A} (f : parser -> A -> result parser) p a t, (exists bad, outcome true bad p (f p a)) ->
  (exists p', f p a = Ok p' /\ pa_table p' = t /\ keeps p p') -> runs f p [a] t.
Proof.
  intros A f p a t (bad & O) (p' & E & T & K). exists p'. cbn [foldr]. rewrite E in *. cbn [bindr outcome] in *. split; [reflexivity|].
  split; [exact T|]. split; [exact K|]. rewrite <- T. apply O.
Qed.

Lemma rule_reads : forall d r, rule_fits d r -> is_empty r || beqb r NO_ACTION = false ->
  rule_of d (to_lower (replace_byte SPACE [] r)) = Some r /\ has_blank (to_lower (replace_byte SPACE [] r)) = false
  /\ is_empty (to_lower (replace_byte SPACE [] r)) = false.
Proof.
  intros d r (H & S) N. cbn [In] in H. destruct H as [<-|[<-|[<-|[<-|[<-|[<-|[]]]]]]]; try discriminate N; vm_compute in N |- *; repeat split; try reflexivity.
  destruct d; try reflexivity. exfalso. apply (S eq_refl). reflexivity.
Qed.

Section Foreign.
Variables (d : dialect) (own : bool) (columns : list bytes) (t : table).
Let f := foreign_sub d own columns (List.length (tb_constraints t)).
Lemma rule_run : forall (s : string) (r : bytes) (g : bytes -> constraint -> constraint) p k,
  (s = "onupdate"%string /\ g = with_update \/ s = "ondelete"%string /\ g = with_delete) ->
  pa_table p = more t [k] [] -> pinv (pa_cache p) (pa_table p) -> rule_fits d r -> g [] k = k ->
  runs f p (map parsed (rule_modifier s r)) (more t [g (rule_read r) k] []).
Proof.
  intros s r g p k Hs T I Hr Gk. unfold rule_modifier, rule_read.
  destruct (is_empty r || beqb r NO_ACTION) eqn:N.
  - replace (negb (is_empty r) && negb (beqb r NO_ACTION)) with false by (destruct (is_empty r), (beqb r NO_ACTION); cbn in *; congruence).
    cbn [when_ map]. rewrite Gk, <- T. apply runs_nil. exact I.
  - replace (negb (is_empty r) && negb (beqb r NO_ACTION)) with true by (destruct (is_empty r), (beqb r NO_ACTION); cbn in *; congruence).
    destruct (rule_reads d r Hr N) as (R1 & R2 & R3). set (v := to_lower (replace_byte SPACE [] r)) in *. cbn [when_ map].
    assert (P : parsed (value_modifier s v []) = raw_modifier s v).
    { unfold parsed, value_modifier, raw_modifier. cbn [raw_text m_name]. destruct v; [discriminate|]. rewrite R2. reflexivity. }
    rewrite P. apply runs_one; [exists False; apply foreign_sub_step; exact I|]. unfold f, foreign_sub. cbn [excluded excludes_dialect m_dialects raw_modifier m_name m_raw].
    rewrite R1.
    destruct Hs as [(-> & ->)|(-> & ->)]; rewrite andb_false_r.
    + change (beqb (B"onupdate") (B"onupdate")) with true. cbv iota. eexists. split; [reflexivity|]. split; [apply (change_key _ _ _ _ _ T)|split; reflexivity].
    + change (beqb (B"ondelete") (B"onupdate")) with false. change (beqb (B"ondelete") (B"ondelete")) with true. cbv iota. eexists. split; [reflexivity|].
      split; [apply (change_key _ _ _ _ _ T)|split; reflexivity].
Qed.
Lemma deferral_run : forall c p k, pa_table p = more t [k] [] -> pinv (pa_cache p) (pa_table p) -> defers d c ->
  con_deferrable k = false -> con_deferred k = false ->
  runs f p (map parsed (deferral c)) (more t [with_deferred (con_deferred c) (with_deferrable (con_deferrable c) k)] []).
Proof.
  intros c p k T I (D1 & D2) K1 K2. unfold deferral. destruct (con_deferrable c).
  - specialize (D1 eq_refl). clear D2. destruct (con_deferred c) eqn:Ed; cbn [map when_]; rewrite parsed_flag;
      (apply runs_one; [exists False; apply foreign_sub_step; exact I|]); unfold f, foreign_sub;
      cbn [excluded excludes_dialect m_dialects flag m_name]; rewrite andb_false_r;
      [change (beqb (B"deferred") (B"onupdate")) with false; change (beqb (B"deferred") (B"ondelete")) with false;
       change (beqb (B"deferred") (B"deferrable")) with false; change (beqb (B"deferred") (B"deferred")) with true
      |change (beqb (B"deferrable") (B"onupdate")) with false; change (beqb (B"deferrable") (B"ondelete")) with false;
       change (beqb (B"deferrable") (B"deferrable")) with true]; cbv iota; rewrite D1; eexists; (split; [reflexivity|]); (split; [|split; reflexivity]);
      rewrite (change_key _ _ _ _ _ T); [reflexivity|].
    replace (with_deferred false (with_deferrable true k)) with (with_deferrable true k) by (destruct k; cbn in K1, K2; subst; reflexivity). reflexivity.
  - destruct (con_deferred c); [discriminate (D2 eq_refl)|]. cbn [map when_].
    replace (with_deferred false (with_deferrable false k)) with k by (destruct k; cbn in K1, K2; subst; reflexivity). rewrite <- T. apply runs_nil. exact I.
Qed.
(** Indexes inside of a foreign key. *)
Definition nested (x : index) : modifier := Mod [] (B"index") [] [] (index_subs x).
Definition index_reads (x : index) : Prop := index_sound d x /\ ix_columns x <> [] /\ Forall plain_col (ix_columns x).
Lemma nested_run : forall xs ys p k, pa_table p = more t [k] ys -> pinv (pa_cache p) (pa_table p) ->
  Forall (fun x => index_reads x /\ ix_columns x = columns) xs ->
  NoDup (map ix_name (tb_indexes t ++ ys) ++ map (index_name t) xs) ->
  runs f p (map parsed (map nested xs)) (more t [k] (ys ++ map (index_of d t) xs)).
Proof.
  induction xs as [|x xs IH]; intros ys p k T I H N.
  - cbn [map]. rewrite app_nil_r, <- T. apply runs_nil. exact I.
  - inversion H as [|? ? ((Hs & Hn & Hp) & Hc) H']; subst. cbn [map]. change (parsed (nested x) :: map parsed (map nested xs)) with ([parsed (nested x)] ++ map parsed (map nested xs)).
    assert (Nm : index_name (pa_table p) x = index_name t x) by (rewrite T; reflexivity).
    assert (Io : index_of d (pa_table p) x = index_of d t x) by (rewrite T; reflexivity).
    apply runs_app with (t := more t [k] (ys ++ [index_of d t x])).
    + apply runs_one; [exists False; apply foreign_sub_step; exact I|].
      destruct (parse_index_reads d (ix_columns x) p x [] I Hs Hn Hp ltac:(split; [constructor|right; discriminate]) (or_intror (conj eq_refl eq_refl))) as (p' & E & T' & K).
      { rewrite Nm, T. cbn [more tb_indexes]. intro X. apply NoDup_remove_2 in N. apply N. apply in_app_iff. left. exact X. }
      exists p'. split; [|split; [|exact K]].
      * unfold f, foreign_sub. change (excluded d (parsed (nested x))) with false. change (m_name (parsed (nested x))) with (B"index"). rewrite andb_false_r. exact E.
      * rewrite T', Io, T, more_more. reflexivity.
    + intros p1 T1 I1. rewrite (app_assoc ys [index_of d t x] (map (index_of d t) xs) : ys ++ index_of d t x :: _ = _).
      apply IH; auto; [rewrite T1; exact I1|].
      rewrite app_assoc, map_app, <- app_assoc. cbn [map app ix_name index_of]. exact N.
Qed.
End Foreign.

(** The referenced table and columns. *)
Definition refers (cur : bytes) (c : constraint) : Prop :=
  plain_col (con_reftable c) /\ ~ In "."%char (con_refschema c) /\ List.length (con_refcolumns c) = List.length (con_columns c)
  /\ con_columns c <> [] /\ Forall plain_col (con_refcolumns c)
  /\ (con_refschema c = [] \/ con_refschema c = cur \/ con_refcolumns c <> con_columns c).
Lemma columns_equal_spec : forall a b, List.length b = List.length a -> (columns_equal a b = true <-> b = a).
Proof.
  induction a as [|x a IH]; intros [|y b] L; try discriminate L; cbn; [tauto|]. injection L as L. rewrite andb_true_iff, IH by exact L.
  destruct (beqb_spec x y) as [->|N]; [|split; [intros (X & _); discriminate|intro X; injection X; congruence]].
  split; [intros (_ & ->); reflexivity|intro X; injection X; auto].
Qed.
Lemma reference_reads : forall cur c, refers cur c ->
  split_reference (con_columns c) (references_value cur c)
  = (if is_empty (schema_read cur c) then None else Some (schema_read cur c), con_reftable c, con_refcolumns c).
Proof.
  intros cur c ((T1 & T2 & T3) & S1 & L & Nc & Pc & H). unfold references_value, schema_read, split_reference.
  assert (Nr : con_refcolumns c <> []) by (intro X; rewrite X in L; destruct (con_columns c); [congruence|discriminate]).
  assert (Q : forall r, cut_byte "."%char (con_reftable c ++ B"." ++ r) = Some (con_reftable c, r)) by (intro r; apply (cut_byte_app "."%char); exact T3).
  destruct (columns_equal (con_columns c) (con_refcolumns c)) eqn:E.
  - apply columns_equal_spec in E; [|exact L]. rewrite E, !app_nil_r.
    assert (S0 : negb (is_empty (con_refschema c)) && negb (beqb (con_refschema c) cur) = false).
    { destruct H as [->|[->|H]]; [reflexivity|rewrite beqb_refl; apply andb_false_r|contradiction]. }
    rewrite S0. cbn [is_empty app]. rewrite (proj2 (cut_byte_None _ _) T3). reflexivity.
  - destruct (negb (is_empty (con_refschema c)) && negb (beqb (con_refschema c) cur)) eqn:S0.
    + rewrite <- !app_assoc. rewrite (cut_byte_app "."%char (con_refschema c) _ S1 : cut_byte _ (con_refschema c ++ B"." ++ _) = _). rewrite Q.
      rewrite split_join by assumption. destruct (con_refschema c); [discriminate|reflexivity].
    + cbn [app is_empty]. rewrite Q.
      assert (N : cut_byte "."%char (join (B",") (con_refcolumns c)) = None).
      { apply cut_byte_None. clear - Pc. induction Pc as [|a l (A1 & A2 & A3) F IH]; [intros []|]. destruct l; [exact A3|].
        rewrite join_cons by discriminate. rewrite !in_app_iff. intros [X|[[X|[]]|X]]; [auto|discriminate|auto]. }
      rewrite N, split_join by assumption. reflexivity.
Qed.
Definition referring (cur : bytes) (c k : constraint) : constraint :=
  with_refschema (schema_read cur c) (with_reftable (con_reftable c) (with_refcolumns (con_refcolumns c) k)).
Lemma set_reference_reads : forall cur c k, refers cur c -> con_refschema k = [] ->
  set_reference (con_columns c) (references_value cur c) k = referring cur c k.
Proof.
  intros cur c k H K. unfold set_reference, referring. rewrite reference_reads by exact H. destruct (schema_read cur c); [|reflexivity].
  cbn [is_empty]. destruct k; cbn in K; subst; reflexivity.
Qed.

Definition fk_subs (c : constraint) (xs : list index) : list modifier :=
  rule_modifier "onupdate" (con_update c) ++ rule_modifier "ondelete" (con_delete c) ++ deferral c ++ map nested xs.
Definition fk_reads (d : dialect) (cur : bytes) (c : constraint) : Prop :=
  con_type c = FOREIGN_KEY /\ refers cur c /\ Forall plain_col (con_columns c) /\ quiet (con_refschema c) /\ quiet (con_reftable c) /\ Forall quiet (con_refcolumns c)
  /\ rule_fits d (con_update c) /\ rule_fits d (con_delete c) /\ defers d c.

Lemma rule_printable : forall (s : string) d r, good_name (B s) = true -> rule_fits d r -> Forall printable (rule_modifier s r).
Proof.
  intros s d r G (H & _). unfold rule_modifier. cbn [In] in H.
  assert (Q : forall v, balanced v -> (forall s, v <> "{"%char :: s) -> Forall printable [value_modifier s v []]).
  { intros v B1 B2. constructor; [|constructor]. apply pr_value; [apply good_name_ok, G|split; auto|constructor]. }
  destruct H as [<-|[<-|[<-|[<-|[<-|[<-|[]]]]]]]; [constructor|constructor|..];
    (change (Forall printable (when_ true (value_modifier s (to_lower (replace_byte SPACE [] (B"CASCADE"))) [])))
     || change (Forall printable (when_ true (value_modifier s (to_lower (replace_byte SPACE [] (B"RESTRICT"))) [])))
     || change (Forall printable (when_ true (value_modifier s (to_lower (replace_byte SPACE [] (B"SET NULL"))) [])))
     || change (Forall printable (when_ true (value_modifier s (to_lower (replace_byte SPACE [] (B"SET DEFAULT"))) []))));
    apply Q; try (vm_compute; intros ? X; discriminate X); apply balanced_no_braces; vm_compute; intuition discriminate.
Qed.
Lemma nested_printable : forall d xs, Forall (index_reads d) xs -> Forall printable (map nested xs).
Proof.
  intros d xs H. apply Forall_map. eapply Forall_impl; [|exact H]. intros x (((V & Q) & _) & _). apply pr_value; [apply good_name_ok; reflexivity|split; [constructor|right; discriminate]|].
  apply index_subs_printable. split; assumption.
Qed.
Lemma fk_subs_printable : forall d cur c xs, fk_reads d cur c -> Forall (index_reads d) xs -> Forall printable (fk_subs c xs).
Proof.
  intros d cur c xs (_ & _ & _ & _ & _ & _ & R1 & R2 & _) H. unfold fk_subs. repeat rewrite Forall_app.
  split; [eapply rule_printable; [reflexivity|exact R1]|]. split; [eapply rule_printable; [reflexivity|exact R2]|]. split; [apply deferral_printable|].
  eapply nested_printable. exact H.
Qed.
Lemma fk_subs_run : forall d own cur t c xs p k,
  k = referring cur c (new_constraint t (key_name d t c) FOREIGN_KEY (con_columns c)) ->
  pa_table p = more t [k] [] -> pinv (pa_cache p) (pa_table p) -> fk_reads d cur c ->
  Forall (fun x => index_reads d x /\ ix_columns x = con_columns c) xs ->
  NoDup (map ix_name (tb_indexes t) ++ map (index_name t) xs) ->
  runs (foreign_sub d own (con_columns c) (List.length (tb_constraints t))) p (map parsed (fk_subs c xs)) (more t [key_of d cur t c] (map (index_of d t) xs)).
Proof.
  intros d own cur t c xs p k Ek T I (Ty & _ & _ & _ & _ & _ & R1 & R2 & D) Hx N. unfold fk_subs. rewrite !map_app.
  eapply runs_app; [apply (rule_run d own (con_columns c) t "onupdate" (con_update c) with_update p k); auto; subst k; reflexivity|].
  intros p1 T1 I1. rewrite <- T1 in I1. eapply runs_app.
  { apply (rule_run d own (con_columns c) t "ondelete" (con_delete c) with_delete p1 _ (or_intror (conj eq_refl eq_refl)) T1 I1 R2). subst k. reflexivity. }
  intros p2 T2 I2. rewrite <- T2 in I2. eapply runs_app.
  { apply (deferral_run d own (con_columns c) t c p2 _ T2 I2 D); subst k; reflexivity. }
  intros p3 T3 I3. rewrite <- T3 in I3.
  assert (K : key_of d cur t c = with_deferred (con_deferred c) (with_deferrable (con_deferrable c) (with_delete (rule_read (con_delete c)) (with_update (rule_read (con_update c)) k)))).
  { subst k. unfold key_of. rewrite Ty, beqb_refl. reflexivity. }
  rewrite K. apply (nested_run d own (con_columns c) t xs [] p3 _ T3 I3 Hx). rewrite app_nil_r. exact N.
Qed.

Lemma ref_value_plain : forall d cur c, fk_reads d cur c -> quiet (references_value cur c) /\ references_value cur c <> [].
Proof.
  intros d cur c (_ & ((T1 & _) & _) & _ & Q1 & Q2 & Q3 & _). assert (C : quiet (B",") /\ quiet (B".")).
  { split; (split; [|split]); vm_compute; intuition discriminate. }
  assert (A : forall a b, quiet a -> quiet b -> quiet (a ++ b)) by (intros a b (X1 & X2 & X3) (Y1 & Y2 & Y3); split; [|split]; rewrite in_app_iff; tauto).
  assert (Z : quiet []) by (split; [|split]; intros []).
  assert (J : quiet (join (B",") (con_refcolumns c))).
  { clear T1. induction Q3 as [|a l Ha F IH]; [exact Z|]. destruct l; [exact Ha|]. rewrite join_cons by discriminate. apply A; [exact Ha|]. apply A; [apply C|exact IH]. }
  unfold references_value. split.
  - apply A; [destruct (_ && _); [apply A; [exact Q1|apply C]|exact Z]|]. apply A; [exact Q2|]. destruct (columns_equal _ _); [exact Z|apply A; [apply C|exact J]].
  - destruct (_ && _); intro E; apply app_eq_nil in E as (_ & E); apply app_eq_nil in E as (E & _); contradiction.
Qed.
Lemma quiet_plain : forall s, quiet s -> plain_value s.
Proof. intros s (A & A' & _). split; [apply balanced_no_braces; assumption|right]. intros r ->. apply A. left. reflexivity. Qed.

Lemma fk_start : forall d cur p c raw v subs,
  pinv (pa_cache p) (pa_table p) -> con_type c = FOREIGN_KEY -> ~ In (key_name d (pa_table p) c) (map con_name (tb_constraints (pa_table p))) -> 
  refers cur c ->
  let n := generate_name FKey (tb_name (pa_table p)) (con_columns c) in
  exists ca p1, get_or_create_constraint (pa_cache (locate n p)) (pa_table (locate n p)) n FOREIGN_KEY (con_columns c)
      = Ok (more (pa_table p) [new_constraint (pa_table p) n FOREIGN_KEY (con_columns c)] [], ca, List.length (tb_constraints (pa_table p)))
    /\ p1 = on_constraints (List.length (tb_constraints (pa_table p))) (with_con_ignore (excluded d (Mod [] raw v subs [])))
              (with_table (more (pa_table p) [new_constraint (pa_table p) n FOREIGN_KEY (con_columns c)] []) ca (locate n p))
    /\ pa_table p1 = more (pa_table p) [new_constraint (pa_table p) n FOREIGN_KEY (con_columns c)] [] /\ keeps p p1
    /\ pinv (pa_cache p1) (pa_table p1) /\ n = key_name d (pa_table p) c.
Proof.
  intros d cur p c raw v subs I Ty F Rf n.
  assert (En : n = key_name d (pa_table p) c).
  { unfold key_name, key_kind. rewrite Ty. change (beqb FOREIGN_KEY PRIMARY_KEY) with false. change (beqb FOREIGN_KEY UNIQUE) with false. rewrite andb_false_r. reflexivity. }
  assert (Nn : n <> []) by (rewrite En; apply key_name_nonempty).
  rewrite <- En in F. destruct (key_new p n FOREIGN_KEY (con_columns c) I Nn F) as (ca & R).
  exists ca. eexists. split; [exact R|]. split; [reflexivity|]. split; [eapply eq_trans; [eapply change_key; reflexivity|reflexivity]|]. split; [split; reflexivity|].
  split; [|exact En].
  destruct (constraint_created true p n FOREIGN_KEY (con_columns c) Nn I) as (t' & c' & i' & R' & S & M & _). rewrite R in R'. injection R' as <- <- <-.
  apply (step_constraints_at true _ _ (with_con_ignore (excluded d (Mod [] raw v subs []))) n (s_inv _ _ _ S) M (fun _ => eq_refl) (fun _ => eq_refl)).
Qed.

Lemma parse_foreign_key_reads : forall d cur p c xs, pinv (pa_cache p) (pa_table p) -> fk_reads d cur c ->
  Forall (fun x => index_reads d x /\ ix_columns x = con_columns c) xs ->
  ~ In (key_name d (pa_table p) c) (map con_name (tb_constraints (pa_table p))) ->
  NoDup (map ix_name (tb_indexes (pa_table p)) ++ map (index_name (pa_table p)) xs) ->
  plain_value (join (B",") (con_columns c)) ->
  adds p (parse_foreign_key d p (parsed (Mod [] (B"foreignkey") [] (join (B",") (con_columns c)) (raw_modifier "references" (references_value cur c) :: fk_subs c xs))))
    [key_of d cur (pa_table p) c] (map (index_of d (pa_table p)) xs).
Proof.
  intros d cur p c xs I Hc Hx F N Vv. unfold parse_foreign_key. set (t := pa_table p) in *. pose proof Hc as (Ty & Rf & Pc & _). pose proof Rf as (_ & _ & _ & Nc & _).
  pose proof (ref_value_plain d cur c Hc) as (Q1 & Q2).
  assert (Ps : Forall printable (raw_modifier "references" (references_value cur c) :: fk_subs c xs)).
  { constructor; [|eapply fk_subs_printable; [exact Hc|]; eapply Forall_impl; [|exact Hx]; intros x (H & _); exact H].
    apply pr_raw; [apply good_name_ok; reflexivity|exact Q2|apply quiet_plain; exact Q1]. }
  destruct (parsed_value_eq (B"foreignkey") (join (B",") (con_columns c)) _ Vv Ps) as (raw & E). rewrite E. cbn [m_value m_subs].
  pose proof (join_own _ Nc Pc) as O.
  assert (Sh : shown_value (join (B",") (con_columns c)) (raw_modifier "references" (references_value cur c) :: fk_subs c xs) = join (B",") (con_columns c)).
  { destruct (join (B",") (con_columns c)); [discriminate|reflexivity]. }
  rewrite Sh, O. cbn [negb map none]. cbv zeta. rewrite split_join by assumption.
  destruct (fk_start d cur p c (B"foreignkey") raw (join (B",") (con_columns c)) I Ty F Rf) as (ca & p1 & R & Ep & T1 & K1 & I1 & En).
  fold t in R, Ep, T1, En. cbv zeta in R. fold t. rewrite R. cbn [bindr]. unfold excluded, excludes_dialect in *. cbn [m_dialects] in *. rewrite <- Ep. clear Ep R.
  rewrite parsed_raw. cbn [foldr].
  set (k := referring cur c (new_constraint t (key_name d t c) FOREIGN_KEY (con_columns c))).
  set (p2 := on_constraints (List.length (tb_constraints t)) (set_reference (con_columns c) (references_value cur c)) p1).
  assert (E2 : foreign_sub d true (con_columns c) (List.length (tb_constraints t)) p1 (raw_modifier "references" (references_value cur c)) = Ok p2) by reflexivity.
  rewrite E2. cbn [bindr].
  assert (I2 : pinv (pa_cache p2) (pa_table p2)).
  { pose proof (foreign_sub_step true False d true (con_columns c) (List.length (tb_constraints t)) p1 (raw_modifier "references" (references_value cur c)) I1) as S. rewrite E2 in S. apply S. }
  assert (T2 : pa_table p2 = more t [k] []).
  { unfold p2. rewrite (change_key _ _ _ _ _ T1). rewrite set_reference_reads by auto. unfold k. rewrite <- En. reflexivity. }
  destruct (fk_subs_run d true cur t c xs p2 k eq_refl T2 I2 Hc Hx N) as (p3 & E3 & T3 & K3 & _).
  exists p3. split; [exact E3|]. split; [exact T3|]. eapply keeps_trans; [exact K1|exact K3].
Qed.

Lemma parse_references_reads : forall d cur n p c xs, pinv (pa_cache p) (pa_table p) -> fk_reads d cur c -> con_columns c = [n] ->
  Forall (fun x => index_reads d x /\ ix_columns x = con_columns c) xs ->
  ~ In (key_name d (pa_table p) c) (map con_name (tb_constraints (pa_table p))) ->
  NoDup (map ix_name (tb_indexes (pa_table p)) ++ map (index_name (pa_table p)) xs) ->
  adds p (parse_references d n p (parsed (Mod [] (B"references") [] (references_value cur c) (fk_subs c xs))))
    [key_of d cur (pa_table p) c] (map (index_of d (pa_table p)) xs).
Proof.
  intros d cur n p c xs I Hc Ec Hx F N. unfold parse_references. set (t := pa_table p) in *. pose proof Hc as (Ty & Rf & Pc & _).
  pose proof (ref_value_plain d cur c Hc) as (Q1 & Q2).
  assert (Ps : Forall printable (fk_subs c xs)).
  { eapply fk_subs_printable; [exact Hc|]; eapply Forall_impl; [|exact Hx]; intros x (H & _); exact H. }
  destruct (parsed_value_eq (B"references") (references_value cur c) _ (quiet_plain _ Q1) Ps) as (raw & E). rewrite E. cbn [m_value m_subs].
  assert (Nn : n <> []) by (rewrite Ec in Pc; inversion Pc as [|? ? (P & _)]; exact P).
  assert (Sh : shown_value (references_value cur c) (fk_subs c xs) = references_value cur c) by (destruct (references_value cur c); [congruence|reflexivity]).
  rewrite Sh. destruct n as [|n0 n]; [congruence|]. cbn [is_empty]. cbv zeta. rewrite <- Ec.
  destruct (fk_start d cur p c (B"references") raw (references_value cur c) I Ty F Rf) as (ca & p1 & R & Ep & T1 & K1 & I1 & En).
  fold t in R, Ep, T1, En. cbv zeta in R. fold t. rewrite R. cbn [bindr]. unfold excluded, excludes_dialect in *. cbn [m_dialects] in *. rewrite <- Ep. clear Ep R.
  set (k := referring cur c (new_constraint t (key_name d t c) FOREIGN_KEY (con_columns c))).
  set (p2 := on_constraints (List.length (tb_constraints t)) (set_reference (con_columns c) (references_value cur c)) p1).
  assert (E2 : foreign_sub d true (con_columns c) (List.length (tb_constraints t)) p1 (raw_modifier "references" (references_value cur c)) = Ok p2) by reflexivity.
  assert (I2 : pinv (pa_cache p2) (pa_table p2)).
  { pose proof (foreign_sub_step true False d true (con_columns c) (List.length (tb_constraints t)) p1 (raw_modifier "references" (references_value cur c)) I1) as S. rewrite E2 in S. apply S. }
  assert (T2 : pa_table p2 = more t [k] []).
  { unfold p2. rewrite (change_key _ _ _ _ _ T1). rewrite set_reference_reads by auto. unfold k. rewrite <- En. reflexivity. }
  destruct (fk_subs_run d false cur t c xs p2 k eq_refl T2 I2 Hc Hx N) as (p3 & E3 & T3 & K3 & _).
  exists p3. split; [exact E3|]. split; [exact T3|]. eapply keeps_trans; [exact K1|exact K3].
Qed.
