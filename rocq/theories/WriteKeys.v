(** Proofs about the table structs written for a table: which field holds which key and
    which index. *)
From Coq Require Import Lia.
From Verif Require Import GoStr GoStrFacts ModelCatalog ModelCache CacheFacts ModelDdl ModelModifier ModelDiff DiffLookup
  ModelGoTag ModelStructs SpecStructs SpecSame ReadKeys.

Local Arguments PRIMARY_KEY : simpl never.
Local Arguments FOREIGN_KEY : simpl never.
Local Arguments UNIQUE : simpl never.
Local Arguments B : simpl never.

(** ** Positions *)
Lemma last_where_some : forall {A} (f : A -> bool) l i, last_where f l = Some i -> exists a, nth_error l i = Some a /\ f a = true.
Proof.
  intros A f. induction l as [|a l IH]; intros i H; cbn in H; [discriminate|].
  destruct (last_where f l) as [j|]; [injection H as <-; exact (IH j eq_refl)|].
  destruct (f a) eqn:E; [|discriminate]. injection H as <-. exists a. auto.
Qed.
Lemma last_where_none : forall {A} (f : A -> bool) l, last_where f l = None -> forall a, In a l -> f a = false.
Proof.
  intros A f. induction l as [|b l IH]; intros H a Ha; cbn in H; [destruct Ha|].
  destruct (last_where f l) as [j|]; [discriminate|]. destruct (f b) eqn:E; [discriminate|].
  destruct Ha as [<-|Ha]; auto.
Qed.
(** At most one element satisfies [f]. *)
Definition single {A} (f : A -> bool) (l : list A) : Prop :=
  forall i j a b, nth_error l i = Some a -> nth_error l j = Some b -> f a = true -> f b = true -> i = j.
Lemma last_where_iff : forall {A} (f : A -> bool) l i, single f l ->
  (last_where f l = Some i <-> exists a, nth_error l i = Some a /\ f a = true).
Proof.
  intros A f l i S. split; [apply last_where_some|]. intros (a & Ha & Fa). destruct (last_where f l) as [j|] eqn:E.
  - destruct (last_where_some _ _ _ E) as (b & Hb & Fb). f_equal. exact (S j i b a Hb Ha Fb Fa).
  - pose proof (last_where_none _ _ E a (nth_error_In _ _ Ha)). congruence.
Qed.
Lemma single_filter : forall {A} (f : A -> bool) l i a, single f l -> nth_error l i = Some a -> f a = true -> filter f l = [a].
Proof.
  intros A f. induction l as [|b l IH]; intros [|i] a S Ha Fa; cbn in Ha; try discriminate.
  - injection Ha as ->. cbn. rewrite Fa. f_equal. assert (N : forall c, In c l -> f c = false).
    { intros c Hc. destruct (f c) eqn:E; [|reflexivity]. destruct (In_nth_error _ _ Hc) as (j & Hj). discriminate (S 0 (Datatypes.S j) a c eq_refl Hj Fa E). }
    clear - N. induction l as [|c l IH]; [reflexivity|]. cbn. rewrite (N c (or_introl eq_refl)). apply IH. intros x Hx. apply N. right. exact Hx.
  - cbn. destruct (f b) eqn:E; [discriminate (S 0 (Datatypes.S i) b a eq_refl Ha E Fa)|]. apply (IH i); auto.
    intros x y p q Hx Hy Fp Fq. exact (eq_add_S _ _ (S (Datatypes.S x) (Datatypes.S y) p q Hx Hy Fp Fq)).
Qed.
Lemma filter_none : forall {A} (f : A -> bool) l, (forall a, In a l -> f a = false) -> filter f l = [].
Proof.
  intros A f l N. induction l as [|c l IH]; [reflexivity|]. cbn. rewrite (N c (or_introl eq_refl)). apply IH. intros x Hx. apply N. right. exact Hx.
Qed.
(** What is at the position found is what is filtered. *)
Lemma found_filter : forall {A C} (f : A -> bool) (g : A -> C) l, single f l ->
  match last_where f l with Some i => match nth_error l i with Some a => [g a] | None => [] end | None => [] end = map g (filter f l).
Proof.
  intros A C f g l S. destruct (last_where f l) as [i|] eqn:E.
  - destruct (last_where_some _ _ _ E) as (a & Ha & Fa). rewrite Ha, (single_filter f l i a S Ha Fa). reflexivity.
  - rewrite (filter_none f l (last_where_none _ _ E)). reflexivity.
Qed.
Lemma last_where_map : forall {A C} (f : C -> bool) (g : A -> C) l, last_where f (map g l) = last_where (fun a => f (g a)) l.
Proof. intros A C f g. induction l as [|a l IH]; [reflexivity|]. cbn. rewrite IH. reflexivity. Qed.
Lemma last_where_ext : forall {A} (f g : A -> bool) l, (forall a, In a l -> f a = g a) -> last_where f l = last_where g l.
Proof.
  intros A f g. induction l as [|a l IH]; intros H; [reflexivity|]. cbn. rewrite IH by (intros x Hx; apply H; right; exact Hx). rewrite (H a (or_introl eq_refl)). reflexivity.
Qed.

(** What is left when the elements at some positions are taken out. *)
Lemma left_over : forall {A C} (g : A -> C) (taken : A -> bool) (added : list nat) l k,
  (forall i a, nth_error l i = Some a -> existsb (Nat.eqb (k + i)) added = taken a) ->
  flat_map (fun '(i, m) => if existsb (Nat.eqb i) added then [] else [g m]) (combine (seq k (List.length l)) l)
  = map g (filter (fun a => negb (taken a)) l).
Proof.
  intros A C g taken added. induction l as [|a l IH]; intros k H; [reflexivity|]. cbn [List.length seq combine flat_map filter].
  rewrite (IH (S k)) by (intros i b Hb; rewrite <- (H (S i) b Hb); f_equal; f_equal; lia).
  pose proof (H 0 a eq_refl) as E. rewrite Nat.add_0_r in E. rewrite E. destruct (taken a); reflexivity.
Qed.

(** ** Modifiers of keys and indexes *)
Definition kind_word (ty : bytes) : string :=
  if beqb ty PRIMARY_KEY then "primarykey" else if beqb ty UNIQUE then "unique" else "foreignkey".
Definition listed (l : list bytes) : bytes := join (B",") l.
Definition is_fk (k : constraint) : bool := beqb (con_type k) FOREIGN_KEY.
(** The modifier of a key with the indexes nested in it. *)
Definition key_full (cur : bytes) (k : constraint) (ys : list index) : modifier :=
  value_modifier (kind_word (con_type k)) (listed (con_columns k))
    (if is_fk k then raw_modifier "references" (references_value cur k) :: fk_subs k ys else deferral k).
Lemma key_types : PRIMARY_KEY <> UNIQUE /\ PRIMARY_KEY <> FOREIGN_KEY /\ UNIQUE <> FOREIGN_KEY.
Proof. repeat split; discriminate. Qed.
Lemma key_modifiers : forall cur l,
  flat_map (constraint_modifier cur) l
  = map (fun k => key_full cur k []) (filter (fun c => negb (con_ignore c) && bmem (con_type c) [PRIMARY_KEY; UNIQUE; FOREIGN_KEY]) l).
Proof.
  intros cur l. induction l as [|c l IH]; [reflexivity|]. cbn [flat_map filter]. rewrite IH. clear IH.
  unfold constraint_modifier. cbv zeta. destruct (con_ignore c); [reflexivity|]. cbn [negb andb].
  assert (Q : bmem (con_type c) [PRIMARY_KEY; UNIQUE; FOREIGN_KEY] = beqb (con_type c) PRIMARY_KEY || (beqb (con_type c) UNIQUE || (beqb (con_type c) FOREIGN_KEY || false)))
    by reflexivity.
  rewrite Q. clear Q. set (r := filter _ l). clearbody r.
  assert (F : key_full cur c [] = value_modifier (kind_word (con_type c)) (listed (con_columns c))
     (if is_fk c then raw_modifier "references" (references_value cur c) :: rule_modifier "onupdate" (con_update c) ++ rule_modifier "ondelete" (con_delete c) ++ deferral c
      else deferral c)).
  { unfold key_full, fk_subs. cbn [map]. rewrite app_nil_r. reflexivity. }
  destruct (beqb_spec (con_type c) PRIMARY_KEY) as [E|_]; [cbn [orb map app]; rewrite F; unfold kind_word, is_fk; rewrite E; reflexivity|].
  destruct (beqb_spec (con_type c) UNIQUE) as [E|_]; [cbn [orb map app]; rewrite F; unfold kind_word, is_fk; rewrite E; reflexivity|].
  destruct (beqb_spec (con_type c) FOREIGN_KEY) as [E|_]; [|reflexivity]. cbn [orb map app]; rewrite F; unfold kind_word, is_fk; rewrite E; reflexivity.
Qed.
Lemma nested_modifier : forall x, with_value [] (index_modifier x) = nested x.
Proof. reflexivity. Qed.

Section Writer.
Variables (cur : bytes) (ks : list constraint) (xs : list index).
(** The keys are primary keys, unique keys and foreign keys; no two of them are equal. *)
Hypothesis KT : forall k, In k ks -> key_type (con_type k).
Hypothesis KU : forall i j a b, nth_error ks i = Some a -> nth_error ks j = Some b -> con_type a = con_type b ->
  con_type a = PRIMARY_KEY \/ listed (con_columns a) = listed (con_columns b) -> i = j.
Hypothesis XU : forall i j a b, nth_error xs i = Some a -> nth_error xs j = Some b ->
  listed (ix_columns a) = listed (ix_columns b) -> i = j.

Definition keyed (ty v : bytes) (k : constraint) : bool := beqb (con_type k) ty && beqb (listed (con_columns k)) v.
Lemma keyed_iff : forall ty v k, keyed ty v k = true <-> con_type k = ty /\ listed (con_columns k) = v.
Proof. intros. unfold keyed. rewrite andb_true_iff, !beqb_eq. reflexivity. Qed.
Lemma keyed_single : forall ty v, single (keyed ty v) ks.
Proof.
  intros ty v i j a b Ha Hb Fa Fb. apply keyed_iff in Fa as (A1 & A2). apply keyed_iff in Fb as (B1 & B2).
  apply (KU i j a b Ha Hb); [congruence|right; congruence].
Qed.
Lemma primary_single : single (fun k => beqb (con_type k) PRIMARY_KEY) ks.
Proof.
  intros i j a b Ha Hb Fa Fb. apply beqb_eq in Fa. apply beqb_eq in Fb. apply (KU i j a b Ha Hb); [congruence|left; exact Fa].
Qed.
Lemma kind_word_iff : forall k ty, In k ks -> key_type ty -> beqb (B (kind_word (con_type k))) (B (kind_word ty)) = beqb (con_type k) ty.
Proof.
  intros k ty Hk Ty. destruct (KT k Hk) as [-> |[-> | ->]], Ty as [-> |[-> | ->]]; reflexivity.
Qed.
Lemma entry_keyed : forall (done : constraint -> list index) ty v, key_type ty ->
  entry (kind_word ty) v (map (fun k => key_full cur k (done k)) ks) = last_where (keyed ty v) ks.
Proof.
  intros done ty v Ty. unfold entry. rewrite last_where_map. apply last_where_ext. intros k Hk. cbn [key_full value_modifier m_name m_value].
  rewrite kind_word_iff by assumption. reflexivity.
Qed.
Lemma entry_primary : forall (done : constraint -> list index),
  primarykey_entry (map (fun k => key_full cur k (done k)) ks) = last_where (fun k => beqb (con_type k) PRIMARY_KEY) ks.
Proof.
  intros done. unfold primarykey_entry. rewrite last_where_map. apply last_where_ext. intros k Hk. cbn [key_full value_modifier m_name].
  apply (kind_word_iff k PRIMARY_KEY Hk). left. reflexivity.
Qed.

(** *** Nested indexes *)
Definition hits (k : constraint) (l : list index) : list index :=
  if is_fk k then filter (fun x => beqb (listed (ix_columns x)) (listed (con_columns k))) l else [].
Definition inside (x : index) : bool := existsb (keyed FOREIGN_KEY (listed (ix_columns x))) ks.
Fixpoint places (i : nat) (l : list index) : list nat :=
  match l with [] => [] | x :: l' => (if inside x then [i] else []) ++ places (S i) l' end.
Lemma inside_entry : forall x, inside x = negb (is_none (last_where (keyed FOREIGN_KEY (listed (ix_columns x))) ks)).
Proof.
  intros x. unfold inside. destruct (last_where _ ks) as [i|] eqn:E; cbn.
  - destruct (last_where_some _ _ _ E) as (k & Hk & Fk). apply existsb_exists. exists k. split; [eapply nth_error_In; exact Hk|exact Fk].
  - apply not_true_is_false. intro H. apply existsb_exists in H as (k & Hk & Fk). rewrite (last_where_none _ _ E k Hk) in Fk. discriminate.
Qed.
Lemma nest_closed : forall l i (done : constraint -> list index),
  nest_indexes i (map (fun k => key_full cur k (done k)) ks) (map index_modifier l)
  = (map (fun k => key_full cur k (done k ++ hits k l)) ks, places i l).
Proof.
  induction l as [|x l IH]; intros i done.
  - cbn. f_equal. apply map_ext. intro k. unfold hits. destruct (is_fk k); rewrite app_nil_r; reflexivity.
  - cbn [map nest_indexes places]. change (m_value (index_modifier x)) with (listed (ix_columns x)).
    change "foreignkey"%string with (kind_word FOREIGN_KEY). rewrite entry_keyed by (right; right; reflexivity). rewrite inside_entry.
    destruct (last_where (keyed FOREIGN_KEY (listed (ix_columns x))) ks) as [p|] eqn:E; cbn [is_none negb app].
    + destruct (last_where_some _ _ _ E) as (k & Hk & Fk). rewrite (nth_error_map _ p ks), Hk. cbn [option_map].
      set (done' := fun k' => if keyed FOREIGN_KEY (listed (ix_columns x)) k' then done k' ++ [x] else done k').
      replace (set_nth p (add_sub (with_value [] (index_modifier x)) (key_full cur k (done k))) (map (fun k0 => key_full cur k0 (done k0)) ks))
        with (map (fun k0 => key_full cur k0 (done' k0)) ks).
      * rewrite IH. f_equal. apply map_ext_in. intros k' Hk'. f_equal. unfold done', hits, is_fk, keyed. cbn [filter].
        destruct (beqb (con_type k') FOREIGN_KEY); cbn [andb].
        -- destruct (beqb_spec (listed (con_columns k')) (listed (ix_columns x))) as [Q|Q].
           ++ rewrite Q, beqb_refl, <- app_assoc. reflexivity.
           ++ destruct (beqb_spec (listed (ix_columns x)) (listed (con_columns k'))); [congruence|reflexivity].
        -- reflexivity.
      * apply nth_error_same. intro j. rewrite nth_error_map. destruct (Nat.eq_dec p j) as [<-|N].
        -- rewrite (set_nth_same _ _ _ (key_full cur k (done k))) by (rewrite nth_error_map, Hk; reflexivity). rewrite Hk. cbn [option_map]. f_equal.
           unfold done'. rewrite Fk. apply keyed_iff in Fk as (Fk & _). unfold key_full, is_fk, add_sub, value_modifier. rewrite Fk, beqb_refl. cbn [m_dialects m_name m_raw m_value m_subs].
           f_equal. cbn [app]. f_equal. unfold fk_subs. rewrite map_app, !app_assoc. reflexivity.
        -- rewrite set_nth_other by exact N. rewrite nth_error_map. destruct (nth_error ks j) as [k'|] eqn:Ej; [|reflexivity]. cbn [option_map]. f_equal. f_equal.
           unfold done'. destruct (keyed FOREIGN_KEY (listed (ix_columns x)) k') eqn:F'; [|reflexivity]. exfalso. apply N.
           exact (keyed_single _ _ p j k k' Hk Ej Fk F').
    + rewrite IH. f_equal. apply map_ext_in. intros k Hk. f_equal. f_equal. unfold hits, is_fk. cbn [filter].
      pose proof (last_where_none _ _ E k Hk) as F. unfold keyed in F. destruct (beqb (con_type k) FOREIGN_KEY); [|reflexivity]. cbn [andb] in F.
      destruct (beqb_spec (listed (ix_columns x)) (listed (con_columns k))) as [Q|]; [rewrite Q, beqb_refl in F; discriminate|reflexivity].
Qed.
Lemma places_iff : forall l i j, In j (places i l) <-> exists k x, j = i + k /\ nth_error l k = Some x /\ inside x = true.
Proof.
  induction l as [|x l IH]; intros i j; cbn [places].
  - split; [intros []|]. intros ([|k] & y & _ & H & _); discriminate.
  - rewrite in_app_iff, IH. split.
    + intros [H|(k & y & -> & Hy & F)].
      * destruct (inside x) eqn:F; [|destruct H]. destruct H as [<-|[]]. exists 0, x. rewrite Nat.add_0_r. auto.
      * exists (S k), y. split; [lia|auto].
    + intros ([|k] & y & -> & Hy & F); cbn in Hy.
      * injection Hy as ->. rewrite F, Nat.add_0_r. left. left. reflexivity.
      * right. exists k, y. split; [lia|auto].
Qed.

(** *** The columns *)
Definition own (ty n : bytes) : list constraint := filter (keyed ty n) ks.
Definition nest (k : constraint) : list index := hits k xs.
Definition L : list modifier := map (fun k => key_full cur k (nest k)) ks.
Definition own_index (n : bytes) : list index := filter (fun x => beqb (listed (ix_columns x)) n && negb (inside x)) xs.
Definition bare (m : modifier) : modifier := with_value [] m.
Definition reference (k : constraint) : modifier := Mod [] (B"references") [] (references_value cur k) (fk_subs k (nest k)).

Lemma own_primary_at : forall n i, own_primarykey L n = Some i <-> exists k, nth_error ks i = Some k /\ keyed PRIMARY_KEY n k = true.
Proof.
  intros n i. unfold own_primarykey, L. rewrite entry_primary.
  destruct (last_where (fun k => beqb (con_type k) PRIMARY_KEY) ks) as [p|] eqn:E.
  - destruct (last_where_some _ _ _ E) as (k & Hk & Fk). rewrite nth_error_map, Hk. cbn [option_map key_full value_modifier m_value].
    split.
    + destruct (beqb (listed (con_columns k)) n) eqn:V; [|discriminate]. intro H. injection H as <-. exists k. split; [exact Hk|]. unfold keyed. rewrite Fk, V. reflexivity.
    + intros (k' & Hk' & F'). unfold keyed in F'. apply andb_true_iff in F' as (F1 & F2).
      pose proof (primary_single p i k k' Hk Hk' Fk F1). subst p. rewrite Hk in Hk'. injection Hk' as <-. rewrite F2. reflexivity.
  - split; [discriminate|]. intros (k & Hk & F). unfold keyed in F. apply andb_true_iff in F as (F1 & _).
    rewrite (last_where_none _ _ E k (nth_error_In _ _ Hk)) in F1. discriminate.
Qed.
Lemma own_primary_last : forall n, own_primarykey L n = last_where (keyed PRIMARY_KEY n) ks.
Proof.
  intro n. destruct (last_where (keyed PRIMARY_KEY n) ks) as [i|] eqn:E.
  - apply own_primary_at. apply last_where_some. exact E.
  - destruct (own_primarykey L n) as [i|] eqn:E2; [|reflexivity]. apply own_primary_at in E2 as (k & Hk & F).
    rewrite (last_where_none _ _ E k (nth_error_In _ _ Hk)) in F. discriminate.
Qed.
Lemma on_column_own : forall ty n, key_type ty ->
  on_column L (last_where (keyed ty n) ks) = map (fun k => bare (key_full cur k (nest k))) (own ty n).
Proof.
  intros ty n Ty. unfold own. rewrite <- (found_filter (keyed ty n) (fun k => bare (key_full cur k (nest k))) ks (keyed_single ty n)).
  unfold on_column, L. destruct (last_where _ ks) as [i|]; [|reflexivity]. rewrite nth_error_map. destruct (nth_error ks i); reflexivity.
Qed.
Lemma on_reference_own : forall n, on_reference L (last_where (keyed FOREIGN_KEY n) ks) = Ok (map reference (own FOREIGN_KEY n)).
Proof.
  intros n. unfold own. rewrite <- (found_filter (keyed FOREIGN_KEY n) reference ks (keyed_single FOREIGN_KEY n)).
  unfold on_reference, L. destruct (last_where _ ks) as [i|] eqn:E; [|reflexivity]. rewrite nth_error_map.
  destruct (last_where_some _ _ _ E) as (k & Hk & Fk). rewrite Hk. cbn [option_map]. apply keyed_iff in Fk as (Fk & _).
  unfold references_of, key_full, is_fk, value_modifier. rewrite Fk, beqb_refl. reflexivity.
Qed.
Lemma index_entry_at : forall n, entry "index" n (map index_modifier xs) = last_where (fun x => beqb (listed (ix_columns x)) n) xs.
Proof. intro n. unfold entry. rewrite last_where_map. apply last_where_ext. intros x Hx. reflexivity. Qed.
Lemma index_single : forall n, single (fun x => beqb (listed (ix_columns x)) n) xs.
Proof. intros n i j a b Ha Hb Fa Fb. apply beqb_eq in Fa. apply beqb_eq in Fb. apply (XU i j a b Ha Hb). congruence. Qed.
Lemma on_column_index : forall n (added : list nat),
  (forall i x, nth_error xs i = Some x -> listed (ix_columns x) = n -> existsb (Nat.eqb i) added = inside x) ->
  let ix := match entry "index" n (map index_modifier xs) with
            | Some i => if existsb (Nat.eqb i) added then None else Some i
            | None => None
            end in
  on_column (map index_modifier xs) ix = map nested (own_index n)
  /\ (forall i, ix = Some i <-> exists x, nth_error xs i = Some x /\ listed (ix_columns x) = n /\ inside x = false).
Proof.
  intros n added H. cbv zeta. rewrite index_entry_at. set (f := fun x => beqb (listed (ix_columns x)) n) in *.
  assert (O : own_index n = filter (fun x => negb (inside x)) (filter f xs)).
  { unfold own_index, f. clear. induction xs as [|x l IH]; [reflexivity|]. cbn. destruct (beqb (listed (ix_columns x)) n); cbn; [|exact IH].
    destruct (inside x); cbn; rewrite IH; reflexivity. }
  destruct (last_where f xs) as [i|] eqn:E.
  - destruct (last_where_some _ _ _ E) as (x & Hx & Fx). unfold f in Fx. pose proof (proj1 (beqb_eq _ _) Fx) as Ex. rewrite (H i x Hx Ex).
    rewrite O, (single_filter f xs i x (index_single n) Hx Fx). cbn [filter]. destruct (inside x) eqn:N; cbn [negb].
    + split; [reflexivity|]. intro j. split; [discriminate|]. intros (y & Hy & Ey & Ny).
      assert (i = j) by (apply (XU i j x y Hx Hy); congruence). subst j. congruence.
    + split; [cbn [on_column]; rewrite nth_error_map, Hx; reflexivity|]. intro j. split.
      * intro Q. injection Q as <-. eauto.
      * intros (y & Hy & Ey & Ny). f_equal. apply (XU i j x y Hx Hy). congruence.
  - rewrite O, (filter_none f xs (last_where_none _ _ E)). split; [reflexivity|]. intro j. split; [discriminate|].
    intros (y & Hy & Ey & _). pose proof (last_where_none _ _ E y (nth_error_In _ _ Hy)) as F. unfold f in F. rewrite Ey, beqb_refl in F. discriminate.
Qed.

(** *** The field of a column *)
Definition identity_modifier (d : dialect) (c : column) : list modifier :=
  match d with
  | Postgres =>
      if beqb (col_identity c) DEFAULT_IDENTITY then [flag "identity"]
      else if beqb (col_identity c) ALWAYS_IDENTITY then [flag "alwaysidentity"] else []
  | SQLServer => when_ (beqb (col_identity c) IDENTITY) (flag "identity")
  | _ => []
  end.
Definition auto_modifier (d : dialect) (c : column) : list modifier :=
  if col_autoincrement c then
    match d with SQLite => [flag "autoincrement"] | MySQL => [flag "auto_increment"] | _ => [] end
  else [].
Definition column_mods (d : dialect) (collation ty : bytes) (c : column) : list modifier :=
  let n := col_name c in
  type_modifier d ty (if none (own PRIMARY_KEY n) then None else Some 0) c
  ++ when_ (col_notnull c) (flag "notnull")
  ++ map (fun k => bare (key_full cur k (nest k))) (own PRIMARY_KEY n)
  ++ map (fun k => bare (key_full cur k (nest k))) (own UNIQUE n)
  ++ map reference (own FOREIGN_KEY n)
  ++ auto_modifier d c ++ identity_modifier d c
  ++ when_ (negb (is_empty (col_default c)) && negb (existsb (ceqb backtick) (col_default c)))
       (raw_modifier "default" (unwrap_brackets (col_default c)))
  ++ when_ (col_onupdate c) (flag "onupdatecurrenttimestamp")
  ++ when_ (negb (is_empty (col_collation c)) && negb (beqb (col_collation c) collation))
       (raw_modifier "collate" (col_collation c))
  ++ map nested (own_index n)
  ++ when_ (col_generated c || negb (is_empty (col_expr c))) (flag "generated").
Definition field_of (d : dialect) (collation ty : bytes) (c : column) : field :=
  Field (go_name (col_name c)) ty (if needs_quoting (col_name c) then col_name c else []) (column_mods d collation ty c).
Lemma type_modifier_pk : forall d ty p q c, is_none p = is_none q -> type_modifier d ty p c = type_modifier d ty q c.
Proof. intros d ty p q c E. unfold type_modifier. rewrite E. reflexivity. Qed.
Lemma own_none : forall ty n, is_none (last_where (keyed ty n) ks) = none (own ty n).
Proof.
  intros ty n. unfold own. destruct (last_where (keyed ty n) ks) as [i|] eqn:E.
  - destruct (last_where_some _ _ _ E) as (k & Hk & Fk). rewrite (single_filter _ _ i k (keyed_single ty n) Hk Fk). reflexivity.
  - rewrite (filter_none _ _ (last_where_none _ _ E)). reflexivity.
Qed.
Definition adds_keys (names : list bytes) (a a' : list nat) : Prop :=
  forall i, In i a' <-> In i a \/ exists k, nth_error ks i = Some k /\ In (listed (con_columns k)) names.
Definition adds_indexes (names : list bytes) (a a' : list nat) : Prop :=
  forall i, In i a' <-> In i a \/ exists x, nth_error xs i = Some x /\ In (listed (ix_columns x)) names /\ inside x = false.

Lemma column_field_closed : forall cat added c f added', ct_current cat = cur ->
  (forall i x, nth_error xs i = Some x -> listed (ix_columns x) = col_name c -> existsb (Nat.eqb i) (snd added) = inside x) ->
  column_field cat L (map index_modifier xs) added c = Ok (f, added') ->
  (exists ty, get_field_type (ct_dialect cat) c = Ok ty /\ f = field_of (ct_dialect cat) (ct_collation cat) ty c)
  /\ adds_keys [col_name c] (fst added) (fst added') /\ adds_indexes [col_name c] (snd added) (snd added').
Proof.
  intros cat added c f added' Ec H E. unfold column_field in E. cbv zeta in E. set (d := ct_dialect cat) in *. set (n := col_name c) in *.
  destruct (get_field_type d c) as [ty| |]; cbn [bindr] in E; try discriminate.
  rewrite own_primary_last in E. change "unique"%string with (kind_word UNIQUE) in E. change "foreignkey"%string with (kind_word FOREIGN_KEY) in E.
  assert (Eu : entry (kind_word UNIQUE) n L = last_where (keyed UNIQUE n) ks) by (apply entry_keyed; right; left; reflexivity).
  assert (Ef : entry (kind_word FOREIGN_KEY) n L = last_where (keyed FOREIGN_KEY n) ks) by (apply entry_keyed; right; right; reflexivity).
  rewrite Eu, Ef in E. rewrite on_reference_own in E. cbn [bindr] in E.
  destruct (on_column_index n (snd added) H) as (Oi & Ii). cbv zeta in Oi, Ii.
  set (ix := match entry "index" n (map index_modifier xs) with Some i => _ | None => None end) in *.
  rewrite Oi in E. rewrite !on_column_own in E by (unfold key_type; tauto).
  assert (Ft : f = field_of d (ct_collation cat) ty c).
  { apply (f_equal (fun r => match r with Ok (f, _) => f | _ => f end)) in E. cbv beta iota in E. rewrite <- E. unfold field_of, column_mods. fold n.
    rewrite (type_modifier_pk d ty (last_where (keyed PRIMARY_KEY n) ks) (if none (own PRIMARY_KEY n) then None else Some 0))
      by (rewrite own_none; destruct (own PRIMARY_KEY n); reflexivity). reflexivity. }
  assert (Ea : added' = (opt_list (last_where (keyed PRIMARY_KEY n) ks) ++ opt_list (last_where (keyed UNIQUE n) ks) ++ opt_list (last_where (keyed FOREIGN_KEY n) ks) ++ fst added,
      opt_list ix ++ snd added)).
  { apply (f_equal (fun r => match r with Ok (_, a) => a | _ => added' end)) in E. cbv beta iota in E. symmetry. exact E. }
  assert (O : forall {A} (o : option A) i, In i (opt_list o) <-> o = Some i).
  { intros A [a|] i; cbn; [|split; [intros []|discriminate]]. split; [intros [->|[]]; reflexivity|intro Q; injection Q; auto]. }
  split; [exists ty; split; [reflexivity|exact Ft]|]. clear Ft E. subst added'. split; intro i; cbn [fst snd]; rewrite !in_app_iff, !O.
  - rewrite !last_where_iff by apply keyed_single. split.
    + intros [(k & Hk & F)|[(k & Hk & F)|[(k & Hk & F)|F]]]; auto; right; exists k; apply keyed_iff in F as (_ & F); (split; [exact Hk|left; symmetry; exact F]).
    + intros [F|(k & Hk & [F|[]])]; auto. destruct (KT k (nth_error_In _ _ Hk)) as [T|[T|T]];
        [left|right; left|right; right; left]; exists k; (split; [exact Hk|apply keyed_iff; auto]).
  - rewrite Ii. split.
    + intros [(x & Hx & F & N)|F]; auto. right. exists x. split; [exact Hx|]. split; [left; auto|exact N].
    + intros [F|(x & Hx & [F|[]] & N)]; auto. left. exists x. auto.
Qed.

Definition shown (c : column) : bool := negb (col_ignore c).
Lemma existsb_in : forall i l, existsb (Nat.eqb i) l = true <-> In i l.
Proof.
  intros i l. rewrite existsb_exists. split.
  - intros (j & Hj & E). apply Nat.eqb_eq in E. subst j. exact Hj.
  - intro H. exists i. split; [exact H|apply Nat.eqb_refl].
Qed.
Lemma column_fields_closed : forall cat cs added fs added', ct_current cat = cur ->
  NoDup (map col_name (filter shown cs)) ->
  (forall i x, nth_error xs i = Some x -> In (listed (ix_columns x)) (map col_name (filter shown cs)) -> existsb (Nat.eqb i) (snd added) = inside x) ->
  column_fields cat L (map index_modifier xs) added cs = Ok (fs, added') ->
  Forall2 (fun c f => exists ty, get_field_type (ct_dialect cat) c = Ok ty /\ f = field_of (ct_dialect cat) (ct_collation cat) ty c) (filter shown cs) fs
  /\ adds_keys (map col_name (filter shown cs)) (fst added) (fst added') /\ adds_indexes (map col_name (filter shown cs)) (snd added) (snd added').
Proof.
  intros cat. induction cs as [|c cs IH]; intros added fs added' Ec N H E.
  - cbn in E. injection E as <- <-. split; [constructor|]. split; intro i; (split; [auto|]); [intros [F|(k & _ & [])]; exact F|intros [F|(x & _ & [] & _)]; exact F].
  - cbn [column_fields] in E. assert (Fe : filter shown (c :: cs) = if col_ignore c then filter shown cs else c :: filter shown cs)
      by (cbn [filter]; unfold shown at 1; destruct (col_ignore c); reflexivity).
    rewrite Fe in *. clear Fe. destruct (col_ignore c); [exact (IH _ _ _ Ec N H E)|].
    destruct (column_field cat L (map index_modifier xs) added c) as [[f a1]| |] eqn:E1; cbn [bindr] in E; try discriminate.
    destruct (column_fields cat L (map index_modifier xs) a1 cs) as [[fs' a2]| |] eqn:E2; cbn [bindr] in E; try discriminate. injection E as <- <-.
    cbn [map] in N, H. inversion N as [|? ? N1 N2]; subst.
    destruct (column_field_closed cat added c f a1 Ec) as (F1 & K1 & X1); [intros i x Hx Ex; apply (H i x Hx); left; auto|exact E1|].
    destruct (IH a1 fs' a2 Ec N2) as (F2 & K2 & X2); [|exact E2|].
    { intros i x Hx Ex. rewrite <- (H i x Hx (or_intror Ex)). apply Bool.eq_true_iff_eq. rewrite !existsb_in. rewrite (X1 i). split; [|auto].
      intros [F|(y & Hy & [F|[]] & _)]; [exact F|]. exfalso. rewrite Hx in Hy. injection Hy as <-. apply N1. rewrite F. exact Ex. }
    split; [constructor; assumption|]. split.
    + intro i. rewrite (K2 i), (K1 i). cbn [map In]. split.
      * intros [[F|(k & Hk & [F|[]])]|(k & Hk & F)]; eauto.
      * intros [F|(k & Hk & [F|F])]; eauto. left. right. exists k. cbn. auto.
    + intro i. rewrite (X2 i), (X1 i). cbn [map In]. split.
      * intros [[F|(k & Hk & [F|[]] & G)]|(k & Hk & F & G)]; eauto 6.
      * intros [F|(k & Hk & [F|F] & G)]; eauto 6. left. right. exists k. cbn. auto.
Qed.

(** *** The struct of a table *)
Definition in_column (cs : list column) (v : bytes) : bool := bmem v (map col_name (filter shown cs)).
Definition table_key (cs : list column) (k : constraint) : bool := beqb (con_type k) PRIMARY_KEY && negb (in_column cs (listed (con_columns k))).
Definition rest_key (cs : list column) (k : constraint) : bool := negb (beqb (con_type k) PRIMARY_KEY) && negb (in_column cs (listed (con_columns k))).
Definition rest_index (cs : list column) (x : index) : bool := negb (inside x) && negb (in_column cs (listed (ix_columns x))).
Definition loose (m : modifier) : field := Field (B"_") (B"struct{}") [] [m].
Definition first_mods (d : dialect) (t : table) : list modifier :=
  match filter (table_key (tb_columns t)) ks with
  | k :: _ => [key_full cur k (nest k)]
  | [] => when_ (dialect_eqb d SQLite && is_virtual t) (flag "virtual")
  end.
Lemma read_table_closed : forall cat t s, ct_current cat = cur ->
  live_keys_of t = ks -> filter (fun x => negb (ix_ignore x) && is_simple_index x) (tb_indexes t) = xs ->
  NoDup (map col_name (filter shown (tb_columns t))) ->
  read_table cat t = Ok s ->
  exists fs, Forall2 (fun c f => exists ty, get_field_type (ct_dialect cat) c = Ok ty /\ f = field_of (ct_dialect cat) (ct_collation cat) ty c) (filter shown (tb_columns t)) fs
  /\ s = TableStruct (go_name (tb_name t))
      (Field [] (B"sq.TableStruct") (table_tag cur t) (first_mods (ct_dialect cat) t)
       :: fs ++ map (fun k => loose (key_full cur k (nest k))) (filter (rest_key (tb_columns t)) ks)
          ++ map (fun x => loose (index_modifier x)) (filter (rest_index (tb_columns t)) xs)).
Proof.
  intros cat t s Ec Ek Ex N E. unfold read_table in E. rewrite Ec, key_modifiers, Ex in E. fold (live_keys_of t) in E. rewrite Ek in E.
  rewrite (nest_closed xs 0 (fun _ => [])) in E. cbn [app] in E. fold L in E.
  change (map (fun k => key_full cur k (hits k xs)) ks) with L in E.
  destruct (column_fields cat L (map index_modifier xs) ([], places 0 xs) (tb_columns t)) as [[fs [added added_ixs]]| |] eqn:E1; cbn [bindr] in E; try discriminate.
  destruct (column_fields_closed cat (tb_columns t) ([], places 0 xs) fs (added, added_ixs) Ec N) as (F1 & K1 & X1); [|exact E1|].
  { intros i x Hx _. cbn [snd]. apply Bool.eq_true_iff_eq. rewrite existsb_in, places_iff. split.
    - intros (k & y & -> & Hy & F). cbn in Hx. congruence.
    - intro F. exists i, x. auto. }
  exists fs. split; [exact F1|]. cbn [fst snd] in K1, X1. set (cs := tb_columns t) in *.
  assert (Ka : forall i k, nth_error ks i = Some k -> existsb (Nat.eqb i) added = in_column cs (listed (con_columns k))).
  { intros i k Hk. apply Bool.eq_true_iff_eq. rewrite existsb_in, (K1 i). unfold in_column. rewrite bmem_In. split.
    - intros [[]|(k' & Hk' & F)]. congruence.
    - intro F. right. exists k. auto. }
  assert (Xa : remaining added_ixs (map index_modifier xs) = map (fun x => loose (index_modifier x)) (filter (rest_index cs) xs)).
  { unfold remaining, indexed. rewrite map_length.
    replace (filter (rest_index cs) xs) with (filter (fun x => negb (negb (rest_index cs x))) xs) by (apply filter_ext; intro; apply negb_involutive).
    rewrite <- (left_over (fun x => loose (index_modifier x)) (fun x => negb (rest_index cs x)) added_ixs xs 0).
    - generalize 0. clear. induction xs as [|x l IH]; intro n; [reflexivity|]. cbn. rewrite IH. reflexivity.
    - intros i x Hx. cbn. apply Bool.eq_true_iff_eq. rewrite existsb_in, (X1 i), places_iff. unfold rest_index, in_column.
      rewrite negb_andb, !negb_involutive, orb_true_iff, bmem_In. split.
      + intros [(k & y & -> & Hy & F)|(y & Hy & F & G)]; [left|right]; cbn in *; congruence.
      + intros [F|F]; [left; exists i, x; auto|]. destruct (inside x) eqn:G; [left; exists i, x; auto|right; exists x; auto]. }
  assert (Ka' : forall a taken, (forall i k, nth_error ks i = Some k -> existsb (Nat.eqb i) a = taken k) ->
     remaining a L = map (fun k => loose (key_full cur k (nest k))) (filter (fun k => negb (taken k)) ks)).
  { intros a taken H. unfold remaining, indexed, L. rewrite map_length.
    rewrite <- (left_over (fun k => loose (key_full cur k (nest k))) taken a ks 0) by exact H.
    generalize 0. clear. induction ks as [|x l IH]; intro n; [reflexivity|]. cbn. rewrite IH. reflexivity. }
  rewrite Xa in E. clear Xa. unfold L at 1 2 in E. rewrite entry_primary in E. unfold first_mods. fold cs.
  assert (G : forall a, (forall i k, nth_error ks i = Some k -> existsb (Nat.eqb i) a = beqb (con_type k) PRIMARY_KEY || in_column cs (listed (con_columns k))) ->
     remaining a L = map (fun k => loose (key_full cur k (nest k))) (filter (rest_key cs) ks)).
  { intros a H. rewrite (Ka' a _ H). f_equal. apply filter_ext. intro k. unfold rest_key. rewrite negb_orb. reflexivity. }
  destruct (last_where (fun k => beqb (con_type k) PRIMARY_KEY) ks) as [p|] eqn:Ep.
  - destruct (last_where_some _ _ _ Ep) as (k & Hk & Fk). rewrite (Ka p k Hk) in E.
    destruct (in_column cs (listed (con_columns k))) eqn:Ic.
    + injection E as <-. assert (Z : filter (table_key cs) ks = []).
      { apply filter_none. intros k' Hk'. unfold table_key. destruct (beqb (con_type k') PRIMARY_KEY) eqn:F'; [|reflexivity].
        destruct (In_nth_error _ _ Hk') as (j & Hj). pose proof (primary_single p j k k' Hk Hj Fk F'). subst j. replace k' with k by congruence. rewrite Ic. reflexivity. }
      rewrite Z. rewrite G; [reflexivity|]. intros i k' Hk'. rewrite (Ka i k' Hk'). destruct (beqb (con_type k') PRIMARY_KEY) eqn:F'; [|reflexivity].
      pose proof (primary_single p i k k' Hk Hk' Fk F'). subst i. replace k' with k by congruence. rewrite Ic. reflexivity.
    + unfold L at 1 in E. rewrite nth_error_map, Hk in E. cbn [option_map] in E. injection E as <-.
      assert (S : single (table_key cs) ks).
      { intros i j a b Ha Hb Fa Fb. unfold table_key in Fa, Fb. apply andb_true_iff in Fa as (Fa & _). apply andb_true_iff in Fb as (Fb & _).
        exact (primary_single i j a b Ha Hb Fa Fb). }
      rewrite (single_filter (table_key cs) ks p k S Hk) by (unfold table_key; rewrite Fk, Ic; reflexivity).
      rewrite G; [reflexivity|]. intros i k' Hk'. cbn [existsb]. rewrite (Ka i k' Hk').
      destruct (Nat.eqb_spec i p) as [->|Np]; [replace k' with k by congruence; rewrite Fk; reflexivity|].
      destruct (beqb (con_type k') PRIMARY_KEY) eqn:F'; [|reflexivity]. exfalso. apply Np. symmetry. exact (primary_single p i k k' Hk Hk' Fk F').
  - injection E as <-. rewrite (filter_none (table_key cs) ks).
    + rewrite G; [reflexivity|]. intros i k Hk. rewrite (Ka i k Hk), (last_where_none _ _ Ep k (nth_error_In _ _ Hk)). reflexivity.
    + intros k Hk. unfold table_key. rewrite (last_where_none _ _ Ep k Hk). reflexivity.
Qed.
End Writer.
