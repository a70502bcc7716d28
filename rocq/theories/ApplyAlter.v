(** Altering one table: dropping and adding columns, constraints and indexes. *)
From Coq Require Import Lia.
From Verif Require Import GoStr GoStrFacts ModelCatalog ModelCache CacheFacts ModelDdl ModelDiff ModelDiffSql SpecDiff DiffLookup DiffFacts SpecApply ApplyFacts ApplyNames.

(** What a table consists of. *)
Definition shape (cols : bytes -> option dcolumn) (cons : bytes -> option constraint) (ixs : bytes -> option index) (dt : dtable) : Prop :=
  (forall n, dt_columns dt n = cols n) /\ (forall n, dt_constraints dt n = cons n) /\ (forall n, dt_indexes dt n = ixs n).

Section Alter.
Context (d : dialect) (cur coll : bytes) (src dest : list schema).
Hypothesis Os : orderly src.
Hypothesis Od : orderly dest.
Hypothesis PD : proper_keys dest.
Hypothesis CR : creatable d cur dest.
Hypothesis KT : kept_targets cur src dest.
Hypothesis SEP : separate d src dest.

Let names := names_ok d src dest.
Let fkeys := keys_ok cur src dest.
Definition fine (q : qname) (dt : dtable) : Prop := names_ok d src dest q dt /\ keys_ok cur src dest q dt.
Definition steady (x : database) : Prop := all_tables_ok fine x.
Lemma steady_names : forall x, steady x -> all_tables_ok (names_ok d src dest) x.
Proof. intros x J q dt E. apply (J q dt E). Qed.
Lemma steady_elsewhere : forall x y q dt, steady x -> elsewhere q x y -> db_tables y q = Some dt -> fine q dt -> steady y.
Proof.
  intros x y q dt J (_ & E) Hq F p dt' Hp. destruct (qeqb_spec p q) as [->|N].
  - rewrite Hq in Hp. injection Hp as <-. exact F.
  - rewrite (E p N) in Hp. apply J. exact Hp.
Qed.
Lemma fine_change : forall q dt dt', fine q dt ->
  (forall n c, dt_constraints dt' n = Some c -> dt_constraints dt n = Some c
     \/ (con_name c = n /\ known_constraint d src dest q c /\ (foreign c -> kept_key cur src dest q n c))) ->
  (forall n i, dt_indexes dt' n = Some i -> dt_indexes dt n = Some i \/ (ix_name i = n /\ known_index d src dest q i)) ->
  fine q dt'.
Proof.
  intros q dt dt' ((N1 & N2 & N3) & K) HC HI. split; [split; [exact N1|split]|].
  - intros n c E. destruct (HC n c E) as [E'|(E1 & E2 & _)]; [apply N2; exact E'|auto].
  - intros n i E. destruct (HI n i E) as [E'|E']; [apply N3; exact E'|exact E'].
  - intros n c E F. destruct (HC n c E) as [E'|(_ & _ & E')]; [apply K; assumption|auto].
Qed.

(** The statements run and change only the table [q], which then satisfies [P]. *)
Definition leads (l : list stmt) (q : qname) (x : database) (P : dtable -> Prop) : Prop :=
  runs d cur coll l x /\ exists dt, db_tables (after d cur coll l x) q = Some dt
    /\ elsewhere q x (after d cur coll l x) /\ steady (after d cur coll l x) /\ P dt.
Lemma leads_nil : forall q x (P : dtable -> Prop) dt, steady x -> db_tables x q = Some dt -> P dt -> leads [] q x P.
Proof. intros q x P dt J E H. split; [exact I|]. exists dt. split; [exact E|]. split; [apply elsewhere_refl|]. auto. Qed.
Lemma leads_app : forall l l' q x (P R : dtable -> Prop), leads l q x P ->
  (forall y dt, steady y -> db_tables y q = Some dt -> P dt -> leads l' q y R) -> leads (l ++ l') q x R.
Proof.
  intros l l' q x P R (R1 & dt & E & L & J & H) HH. destruct (HH _ _ J E H) as (R2 & dt' & E' & L' & J' & H').
  split; [apply runs_app; auto|]. exists dt'. rewrite after_app. split; [exact E'|]. split; [|auto].
  eapply elsewhere_trans; eassumption.
Qed.
Lemma leads_imp : forall l q x (P R : dtable -> Prop), leads l q x P -> (forall dt, fine q dt -> P dt -> R dt) -> leads l q x R.
Proof.
  intros l q x P R (R1 & dt & E & L & J & H) HH. split; [exact R1|]. exists dt. split; [exact E|]. split; [exact L|].
  split; [exact J|]. apply HH; [apply J; exact E|exact H].
Qed.
(** One statement that changes the table. *)
Lemma leads_one : forall s q x dt dt' (P : dtable -> Prop), steady x -> db_tables x q = Some dt -> allowed d cur x s ->
  effect d cur coll x s = set_table x q (Some dt') -> fine q dt' -> P dt' -> leads [s] q x P.
Proof.
  intros s q x dt dt' P J E A EF F H. split; [split; [exact A|exact I]|]. exists dt'. unfold after. cbn [fold_left]. rewrite EF.
  split; [apply set_table_at|]. split; [apply set_table_elsewhere|]. split; [|exact H].
  eapply steady_elsewhere; [exact J|apply set_table_elsewhere|apply set_table_at|exact F].
Qed.
Lemma leads_loop : forall {A} (f : A -> list stmt) (Q : list A -> dtable -> Prop) q,
  (forall a l x dt, steady x -> db_tables x q = Some dt -> Q (a :: l) dt -> leads (f a) q x (Q l)) ->
  forall l x dt, steady x -> db_tables x q = Some dt -> Q l dt -> leads (flat_map f l) q x (Q []).
Proof.
  intros A f Q q H l. induction l as [|a l IH]; intros x dt J E HQ; [eapply leads_nil; eassumption|].
  cbn [flat_map]. eapply leads_app; [eapply H; eassumption|]. intros y dt' J' E' HQ'. eapply IH; eassumption.
Qed.
Lemma flat_map_single : forall {A C} (f : A -> C) l, flat_map (fun a => [f a]) l = map f l.
Proof. intros A C f l. induction l as [|a l IH]; cbn; [reflexivity|]. rewrite IH. reflexivity. Qed.
Lemma leads_map : forall {A} (f : A -> stmt) (Q : list A -> dtable -> Prop) q,
  (forall a l x dt, steady x -> db_tables x q = Some dt -> Q (a :: l) dt -> leads [f a] q x (Q l)) ->
  forall l x dt, steady x -> db_tables x q = Some dt -> Q l dt -> leads (map f l) q x (Q []).
Proof.
  intros A f Q q H l x dt J E HQ. rewrite <- flat_map_single. eapply leads_loop; [exact H|exact J|exact E|exact HQ].
Qed.

(** The list [l] of objects that are still to be handled. *)
Definition rest {A} (name : A -> bytes) (L l : list A) : Prop := incl l L /\ NoDup (map name l).
Lemma rest_start : forall {A} (name : A -> bytes) L, NoDup (map name L) -> rest name L L.
Proof. intros A name L N. split; [apply incl_refl|exact N]. Qed.
Lemma rest_tail : forall {A} (name : A -> bytes) L a l, rest name L (a :: l) -> In a L /\ rest name L l.
Proof.
  intros A name L a l (I0 & N). split; [apply I0; left; reflexivity|]. split.
  - intros b Hb. apply I0. right. exact Hb.
  - cbn [map] in N. inversion N. assumption.
Qed.

Context (q : qname) (s t : table).
Hypothesis Ls : located src q s.
Hypothesis Lt : located dest q t.

(** *** Dropping constraints *)
Definition superfluous_key (c : constraint) : Prop :=
  In c (tb_constraints s) /\ unique_key c
  /\ forall k, In k (tb_constraints t) -> con_name k = con_name c -> con_columns k <> con_columns c.
Lemma drop_constraints_lead : forall L w x dt cols cons ixs, place cur w = q ->
  NoDup (map con_name L) -> (forall c, In c L -> superfluous_key c /\ cons (con_name c) = Some c) ->
  steady x -> db_tables x q = Some dt -> shape cols cons ixs dt ->
  leads (map (QDropConstraint w) L) q x (shape cols (updated con_name L (fun _ => None) [] cons) ixs).
Proof.
  intros L w x dt cols cons ixs W N HL J E SH.
  pose (Q l dt := rest con_name L l /\ shape cols (updated con_name L (fun _ => None) l cons) ixs dt).
  assert (G : leads (map (QDropConstraint w) L) q x (Q [])).
  { eapply leads_map; [|exact J|exact E|].
    - clear x dt J E SH. intros c l x dt J E (R & S1 & S2 & S3). destruct (rest_tail _ _ _ _ R) as (Hc & R').
      destruct (HL c Hc) as ((Hs & Kc & Hk) & Ec).
      assert (Ec' : dt_constraints dt (con_name c) = Some c) by (rewrite S2, updated_here; exact Ec).
      eapply leads_one with (dt' := put_constraint (con_name c) None dt); [exact J|exact E| | | |].
      + cbn [allowed]. exists dt. rewrite W. split; [exact E|]. exists c. split; [exact Ec'|].
        intros _ f (Ff & q' & dtf & n & E' & Ef) Tf SS. destruct (J _ _ E') as (_ & KK). pose proof (KK n f Ef Ff) as K.
        destruct (kept_target _ _ _ _ _ _ K) as (s' & t' & g & Ls' & Lt' & Hg & Eg & Fg & _ & ET & ER & f' & Hf' & Ef').
        assert (En : con_name f' = con_name g) by congruence. rewrite ER in SS.
        assert (Tg : target cur g = q) by congruence.
        destruct (KT q' s' t' f' g s t c Ls' Lt' Hf' Hg En Fg) as (k' & Hk' & En' & Ec''); try assumption.
        { rewrite Tg. exact Ls. }
        { rewrite Tg. exact Lt. }
        exact (Hk k' Hk' En' Ec'').
      + cbn [effect]. rewrite W. apply change_at_is. exact E.
      + apply (fine_change q dt); [apply J; exact E| |].
        * intros n k Z. cbn in Z. unfold put in Z. destruct (beqb n (con_name c)); [discriminate|]. auto.
        * intros n k Z. cbn in Z. auto.
      + split; [exact R'|]. split; [exact S1|]. split; [|exact S3].
        intro n. cbn. rewrite <- (updated_step con_name L (fun _ => None) c l cons n N Hc (proj2 R)).
        unfold put. destruct (beqb n (con_name c)); [reflexivity|]. apply S2.
    - split; [apply rest_start; exact N|]. destruct SH as (S1 & S2 & S3). split; [exact S1|]. split; [|exact S3].
      intro n. rewrite updated_start. apply S2. }
  eapply leads_imp; [exact G|]. intros dt' _ (_ & H). exact H.
Qed.

(** *** Dropping indexes *)
Lemma drop_indexes_lead : forall L (w : index -> qname) x dt cols cons ixs, (forall i, In i L -> place cur (w i) = q) ->
  NoDup (map ix_name L) -> (forall i, In i L -> ixs (ix_name i) = Some i) ->
  steady x -> db_tables x q = Some dt -> shape cols cons ixs dt ->
  leads (map (fun i => QDropIndex (w i) (ix_name i)) L) q x (shape cols cons (updated ix_name L (fun _ => None) [] ixs)).
Proof.
  intros L w x dt cols cons ixs W N HL J E SH.
  pose (Q l dt := rest ix_name L l /\ shape cols cons (updated ix_name L (fun _ => None) l ixs) dt).
  assert (G : leads (map (fun i => QDropIndex (w i) (ix_name i)) L) q x (Q [])).
  { eapply leads_map; [|exact J|exact E|].
    - clear x dt J E SH. intros i l x dt J E (R & S1 & S2 & S3). destruct (rest_tail _ _ _ _ R) as (Hi & R').
      eapply leads_one with (dt' := put_index (ix_name i) None dt); [exact J|exact E| | | |].
      + cbn [allowed]. exists dt. rewrite (W i Hi). split; [exact E|]. rewrite S3, updated_here, (HL i Hi). discriminate.
      + cbn [effect]. rewrite (W i Hi). apply change_at_is. exact E.
      + apply (fine_change q dt); [apply J; exact E| |].
        * intros n k Z. cbn in Z. auto.
        * intros n k Z. cbn in Z. unfold put in Z. destruct (beqb n (ix_name i)); [discriminate|]. auto.
      + split; [exact R'|]. split; [exact S1|]. split; [exact S2|].
        intro n. cbn. rewrite <- (updated_step ix_name L (fun _ => None) i l ixs n N Hi (proj2 R)).
        unfold put. destruct (beqb n (ix_name i)); [reflexivity|]. apply S3.
    - split; [apply rest_start; exact N|]. destruct SH as (S1 & S2 & S3). split; [exact S1|]. split; [exact S2|].
      intro n. rewrite updated_start. apply S3. }
  eapply leads_imp; [exact G|]. intros dt' _ (_ & H). exact H.
Qed.

(** *** Dropping columns *)
Definition in_columns (n : bytes) : Prop := In n (map col_name (tb_columns t)).
Lemma drop_columns_lead : forall L w x dt cols cons ixs, place cur w = q ->
  NoDup (map col_name L) -> (forall c, In c L -> ~ in_columns (col_name c) /\ cols (col_name c) <> None) ->
  (forall n c m, cons n = Some c -> unique_key c -> In m (con_columns c) -> in_columns m) ->
  (forall n i, ixs n = Some i -> (forall m, In m (ix_columns i) -> in_columns m \/ wrapped_in_brackets m = true)
                                 /\ forall m, In m (ix_include i) -> in_columns m) ->
  steady x -> db_tables x q = Some dt -> shape cols cons ixs dt ->
  leads (map (fun c => QDropColumn w (col_name c)) L) q x (shape (updated col_name L (fun _ => None) [] cols) cons ixs).
Proof.
  intros L w x dt cols cons ixs W N HL HC HI J E SH.
  pose (Q l dt := rest col_name L l /\ shape (updated col_name L (fun _ => None) l cols) cons ixs dt).
  assert (G : leads (map (fun c => QDropColumn w (col_name c)) L) q x (Q [])).
  { eapply leads_map; [|exact J|exact E|].
    - clear x dt J E SH. intros c l x dt J E (R & S1 & S2 & S3). destruct (rest_tail _ _ _ _ R) as (Hc & R').
      destruct (HL c Hc) as (Nt & Nn).
      eapply leads_one with (dt' := put_column (col_name c) None dt); [exact J|exact E| | | |].
      + cbn [allowed]. destruct (dt_columns dt (col_name c)) as [k|] eqn:Ek.
        2: { exfalso. apply Nn. rewrite S1, updated_here in Ek. exact Ek. }
        exists dt, k. rewrite W. split; [exact E|]. split; [exact Ek|]. split; [|split].
        * intros m c0 Em K Hm. destruct K as [K|F].
          -- rewrite S2 in Em. apply Nt. exact (HC _ _ _ Em K Hm).
          -- destruct (J _ _ E) as (_ & KK). apply Nt.
             apply (kept_columns d cur src dest Od CR q m c0 t Lt (KK m c0 Em F)). exact Hm.
        * intros m i Em. rewrite S3 in Em. destruct (HI _ _ Em) as (I1 & I2). split.
          -- intro Hm. destruct (I1 _ Hm) as [Z|Z]; [contradiction|exact Z].
          -- intro Hm. apply Nt, I2, Hm.
        * intros f (Ff & q' & dtf & n & E' & Ef) Tf Hm. destruct (J _ _ E') as (_ & KK).
          destruct (kept_refers d cur src dest CR q' n f (KK n f Ef Ff)) as (u & Lu & Hu). rewrite Tf in Lu.
          assert (u = t) by (eapply located_one; [apply orderly_tables; exact Od|eassumption|eassumption]). subst u.
          apply Nt, Hu, Hm.
      + cbn [effect]. rewrite W. apply change_at_is. exact E.
      + apply (fine_change q dt); [apply J; exact E| |]; intros n k Z; cbn in Z; auto.
      + split; [exact R'|]. split; [|split; [exact S2|exact S3]].
        intro n. cbn. rewrite <- (updated_step col_name L (fun _ => None) c l cols n N Hc (proj2 R)).
        unfold put. destruct (beqb n (col_name c)); [reflexivity|]. apply S1.
    - split; [apply rest_start; exact N|]. destruct SH as (S1 & S2 & S3). split; [|split; [exact S2|exact S3]].
      intro n. rewrite updated_start. apply S1. }
  eapply leads_imp; [exact G|]. intros dt' _ (_ & H). exact H.
Qed.

(** *** Adding columns *)
Lemma add_columns_lead : forall L w x dt cols cons ixs, place cur w = q ->
  NoDup (map col_name L) -> (forall c, In c L -> cols (col_name c) = None) ->
  steady x -> db_tables x q = Some dt -> shape cols cons ixs dt ->
  leads (map (QAddColumn w) L) q x (shape (updated col_name L (fun c => Some (written d coll c)) [] cols) cons ixs).
Proof.
  intros L w x dt cols cons ixs W N HL J E SH. set (g := fun c => Some (written d coll c)).
  pose (Q l dt := rest col_name L l /\ shape (updated col_name L g l cols) cons ixs dt).
  assert (G : leads (map (QAddColumn w) L) q x (Q [])).
  { eapply leads_map; [|exact J|exact E|].
    - clear x dt J E SH. intros c l x dt J E (R & S1 & S2 & S3). destruct (rest_tail _ _ _ _ R) as (Hc & R').
      eapply leads_one with (dt' := put_column (col_name c) (Some (written d coll c)) dt); [exact J|exact E| | | |].
      + cbn [allowed]. exists dt. rewrite W. split; [exact E|]. rewrite S1, updated_here. apply HL. exact Hc.
      + cbn [effect]. rewrite W. apply change_at_is. exact E.
      + apply (fine_change q dt); [apply J; exact E| |]; intros n k Z; cbn in Z; auto.
      + split; [exact R'|]. split; [|split; [exact S2|exact S3]].
        intro n. cbn. rewrite <- (updated_step col_name L g c l cols n N Hc (proj2 R)).
        unfold put. destruct (beqb n (col_name c)); [reflexivity|]. apply S1.
    - split; [apply rest_start; exact N|]. destruct SH as (S1 & S2 & S3). split; [|split; [exact S2|exact S3]].
      intro n. rewrite updated_start. apply S1. }
  eapply leads_imp; [exact G|]. intros dt' _ (_ & H). exact H.
Qed.

(** *** MySQL: modifying columns *)
Lemma modify_columns_lead : forall (L : list (column * column)) w x dt cols cons ixs, place cur w = q ->
  NoDup (map (fun p => col_name (snd p)) L) -> (forall p, In p L -> cols (col_name (snd p)) <> None /\ In (snd p) (tb_columns t)) ->
  (forall n k, cons n = Some k -> primary k -> exists k', In k' (tb_constraints t) /\ primary k' /\ con_columns k' = con_columns k) ->
  steady x -> db_tables x q = Some dt -> shape cols cons ixs dt ->
  leads (map (fun p => QModifyColumn w (snd p)) L) q x
    (shape (updated (fun p => col_name (snd p)) L (fun p => Some (written d coll (snd p))) [] cols) cons ixs).
Proof.
  intros L w x dt cols cons ixs W N HL HK J E SH. set (g := fun p : column * column => Some (written d coll (snd p))).
  set (nm := fun p : column * column => col_name (snd p)) in *.
  pose (Q l dt := rest nm L l /\ shape (updated nm L g l cols) cons ixs dt).
  assert (G : leads (map (fun p => QModifyColumn w (snd p)) L) q x (Q [])).
  { eapply leads_map; [|exact J|exact E|].
    - clear x dt J E SH. intros c l x dt J E (R & S1 & S2 & S3). destruct (rest_tail _ _ _ _ R) as (Hc & R').
      destruct (HL c Hc) as (Nn & Ht).
      eapply leads_one with (dt' := put_column (nm c) (g c) dt); [exact J|exact E| | | |].
      + cbn [allowed]. destruct (dt_columns dt (nm c)) as [k|] eqn:Ek.
        2: { exfalso. apply Nn. rewrite S1, updated_here in Ek. exact Ek. }
        exists dt, k. rewrite W. split; [exact E|]. split; [exact Ek|].
        intros m k0 Em P0 Hm. rewrite S2 in Em. destruct (HK _ _ Em P0) as (k' & Hk' & P' & Ec).
        rewrite <- Ec in Hm. exact (proj2 (PD q t Lt) k' (snd c) Hk' P' Ht Hm).
      + cbn [effect]. rewrite W. apply change_at_is. exact E.
      + apply (fine_change q dt); [apply J; exact E| |]; intros n k Z; cbn in Z; auto.
      + split; [exact R'|]. split; [|split; [exact S2|exact S3]].
        intro n. cbn. rewrite <- (updated_step nm L g c l cols n N Hc (proj2 R)).
        unfold put. destruct (beqb n (nm c)); [reflexivity|]. apply S1.
    - split; [apply rest_start; exact N|]. destruct SH as (S1 & S2 & S3). split; [|split; [exact S2|exact S3]].
      intro n. rewrite updated_start. apply S1. }
  eapply leads_imp; [exact G|]. intros dt' _ (_ & H). exact H.
Qed.

(** *** Creating indexes *)
Lemma index_columns_exist : forall (cols : bytes -> option dcolumn) dt i, In i (tb_indexes t) -> (forall n, dt_columns dt n = cols n) ->
  (forall n, in_columns n -> cols n <> None) -> ix_columns i <> [] /\ has_index_columns dt i.
Proof.
  intros cols dt i Hi S1 HC. destruct (CR q t Lt) as (_ & _ & _ & _ & _ & _ & _ & CI). destruct (CI i Hi) as (I1 & I2 & I3).
  split; [exact I1|]. split.
  - intros n Hn. destruct (I2 n Hn) as [Z|Z]; [left|auto]. rewrite S1. apply HC. exact Z.
  - intros n Hn. rewrite S1. apply HC, I3, Hn.
Qed.
Lemma create_indexes_lead : forall L (w : index -> qname) b x dt cols cons ixs, (forall i, In i L -> place cur (w i) = q) ->
  NoDup (map ix_name L) -> (forall i, In i L -> In i (tb_indexes t) /\ ixs (ix_name i) = None) ->
  (forall n, in_columns n -> cols n <> None) ->
  steady x -> db_tables x q = Some dt -> shape cols cons ixs dt ->
  leads (map (fun i => QCreateIndex (w i) i b) L) q x (shape cols cons (updated ix_name L Some [] ixs)).
Proof.
  intros L w b x dt cols cons ixs W N HL HC J E SH.
  pose (Q l dt := rest ix_name L l /\ shape cols cons (updated ix_name L Some l ixs) dt).
  assert (G : leads (map (fun i => QCreateIndex (w i) i b) L) q x (Q [])).
  { eapply leads_map; [|exact J|exact E|].
    - clear x dt J E SH. intros i l x dt J E (R & S1 & S2 & S3). destruct (rest_tail _ _ _ _ R) as (Hi & R').
      destruct (HL i Hi) as (Ht & Nn).
      eapply leads_one with (dt' := put_index (ix_name i) (Some i) dt); [exact J|exact E| | | |].
      + cbn [allowed]. exists dt. rewrite (W i Hi). split; [exact E|].
        split; [|exact (index_columns_exist cols dt i Ht S1 HC)].
        apply (fresh_index d cur src dest Od CR SEP x q t i dt); try assumption; [apply steady_names; exact J|].
        rewrite S3, updated_here. exact Nn.
      + cbn [effect]. rewrite (W i Hi). apply change_at_is. exact E.
      + apply (fine_change q dt); [apply J; exact E| |]; intros n k Z; cbn in Z; [auto|].
        unfold put in Z. destruct (beqb_spec n (ix_name i)) as [->|]; [|auto]. injection Z as <-. right. split; [reflexivity|].
        left. exists dest, t, i. split; [right; reflexivity|]. auto.
      + split; [exact R'|]. split; [exact S1|]. split; [exact S2|].
        intro n. cbn. rewrite <- (updated_step ix_name L Some i l ixs n N Hi (proj2 R)).
        unfold put. destruct (beqb n (ix_name i)); [reflexivity|]. apply S3.
    - split; [apply rest_start; exact N|]. destruct SH as (S1 & S2 & S3). split; [exact S1|]. split; [exact S2|].
      intro n. rewrite updated_start. apply S3. }
  eapply leads_imp; [exact G|]. intros dt' _ (_ & H). exact H.
Qed.

(** *** Adding keys *)
(** Columns after the primary keys of [L] without [l] have been added. *)
Definition forced (L l : list constraint) (n : bytes) : bool :=
  existsb (fun k => beqb (con_type k) PRIMARY_KEY && negb (bmem (con_name k) (map con_name l)) && bmem n (con_columns k)) L.
Definition not_null (b : bool) (o : option dcolumn) : option dcolumn := if b then option_map (set_notnull true) o else o.
Lemma forced_start : forall L n, forced L L n = false.
Proof.
  intros L n. unfold forced. destruct (existsb _ L) eqn:X; [|reflexivity]. apply existsb_exists in X. destruct X as (k & Hk & X).
  rewrite !andb_true_iff, negb_true_iff in X. destruct X as ((_ & X) & _). apply bmem_not_In in X. exfalso. apply X. apply in_map. exact Hk.
Qed.
Lemma forced_step : forall L a l n, NoDup (map con_name L) -> In a L -> NoDup (map con_name (a :: l)) ->
  forced L l n = forced L (a :: l) n || (beqb (con_type a) PRIMARY_KEY && bmem n (con_columns a)).
Proof.
  intros L a l n N Ha Nl. unfold forced. cbn [map] in Nl. inversion Nl as [|? ? N1 N2]; subst. apply eq_true_iff_eq.
  rewrite orb_true_iff, !existsb_exists. split.
  - intros (k & Hk & X). rewrite !andb_true_iff, negb_true_iff in X. destruct X as ((X1 & X2) & X3).
    destruct (beqb_spec (con_name k) (con_name a)) as [Ee|Ne].
    + assert (k = a) by (exact (NoDup_map_inj_on _ _ k a N Hk Ha Ee)). subst k. right. rewrite X1, X3. reflexivity.
    + left. exists k. split; [exact Hk|]. rewrite X1, X3. cbn [map]. unfold bmem. cbn [existsb].
      destruct (beqb_spec (con_name k) (con_name a)); [congruence|]. fold (bmem (con_name k) (map con_name l)). rewrite X2. reflexivity.
  - intros [(k & Hk & X)|X].
    + exists k. split; [exact Hk|]. rewrite !andb_true_iff, negb_true_iff in X. destruct X as ((X1 & X2) & X3).
      unfold bmem in X2. cbn [map existsb] in X2. apply orb_false_iff in X2. destruct X2 as (_ & X2).
      fold (bmem (con_name k) (map con_name l)) in X2. rewrite X1, X2, X3. reflexivity.
    + exists a. split; [exact Ha|]. apply andb_true_iff in X. destruct X as (X1 & X2). rewrite X1, X2.
      rewrite (proj2 (bmem_not_In _ _) N1). reflexivity.
Qed.
Lemma not_null_twice : forall a b o, not_null b (not_null a o) = not_null (a || b) o.
Proof. intros [|] [|] [k|]; reflexivity. Qed.
Lemma with_constraint_columns : forall c dt n,
  dt_columns (with_constraint c dt) n = not_null (beqb (con_type c) PRIMARY_KEY && bmem n (con_columns c)) (dt_columns dt n).
Proof.
  intros c dt n. unfold with_constraint. cbn [dt_columns]. destruct (beqb (con_type c) PRIMARY_KEY); cbn [andb]; [|reflexivity].
  destruct (bmem n (con_columns c)); reflexivity.
Qed.
(** A key of the catalog that the table does not have yet. *)
Definition missing_key (cons : bytes -> option constraint) (c : constraint) : Prop :=
  In c (tb_constraints t) /\ unique_key c /\ cons (con_name c) = None /\ (primary c -> forall n k, cons n = Some k -> ~ primary k).
Definition no_index (ixs : bytes -> option index) (c : constraint) : Prop := ixs (con_name c) = None.

(** The primary key among keys is the only one. *)
Lemma one_primary : forall L a l (g : constraint -> constraint) cons n k, (forall c, In c L -> missing_key cons c) -> rest con_name L (a :: l) ->
  (forall c, con_type (g c) = con_type c) -> primary a ->
  updated con_name L (fun c => Some (g c)) (a :: l) cons n = Some k -> ~ primary k.
Proof.
  intros L a l g cons n k HL R Hg Pa E Pk. destruct (rest_tail _ _ _ _ R) as (Ha & _). destruct (HL a Ha) as (At & _ & _ & Np).
  unfold updated in E. destruct (called con_name L n) as [c|] eqn:C; [|exact (Np Pa _ _ E Pk)].
  destruct (bmem n (map con_name (a :: l))) eqn:M; [exact (Np Pa _ _ E Pk)|]. injection E as <-. apply called_some in C. destruct C as (Hc & <-).
  destruct (HL c Hc) as (Ct & _). assert (c = a).
  { apply (proj1 (PD q t Lt)); try assumption. unfold primary in *. rewrite Hg in Pk. exact Pk. }
  subst c. apply bmem_not_In in M. apply M. left. reflexivity.
Qed.
Lemma key_columns : forall c, In c (tb_constraints t) -> unique_key c -> con_columns c <> [] /\ forall n, In n (con_columns c) -> in_columns n.
Proof. intros c Hc K. destruct (CR q t Lt) as (_ & _ & _ & CK & _). exact (CK c Hc (or_introl K)). Qed.
Lemma known_own : forall c, In c (tb_constraints t) -> known_constraint d src dest q c.
Proof. intros c Hc. left. exists dest, t, c. split; [right; reflexivity|]. auto. Qed.

Lemma add_keys_lead : forall L w x dt cols cons ixs, place cur w = q -> d <> Postgres ->
  NoDup (map con_name L) -> (forall c, In c L -> missing_key cons c /\ no_index ixs c) ->
  (forall n, in_columns n -> cols n <> None) ->
  steady x -> db_tables x q = Some dt -> shape cols cons ixs dt ->
  leads (map (fun c => QAddConstraint w c false) L) q x
    (shape (fun n => not_null (forced L [] n) (cols n)) (updated con_name L Some [] cons) ixs).
Proof.
  intros L w x dt cols cons ixs W ND N HL HC J E SH.
  pose (Q l dt := rest con_name L l /\ shape (fun n => not_null (forced L l n) (cols n)) (updated con_name L Some l cons) ixs dt).
  assert (G : leads (map (fun c => QAddConstraint w c false) L) q x (Q [])).
  { eapply leads_map; [|exact J|exact E|].
    - clear x dt J E SH. intros c l x dt J E (R & S1 & S2 & S3). destruct (rest_tail _ _ _ _ R) as (Hc & R').
      destruct (HL c Hc) as ((Ht & Kc & Nc & Np) & Ni). destruct (key_columns c Ht Kc) as (C1 & C2).
      assert (Nc' : dt_constraints dt (con_name c) = None) by (rewrite S2, updated_here; exact Nc).
      eapply leads_one with (dt' := with_constraint c dt); [exact J|exact E| | | |].
      + cbn [allowed]. exists dt. rewrite W. split; [exact E|]. split; [apply (con_facts _ Od _ _ _ Lt Ht)|]. split; [exact Nc'|].
        split; [|split; [exact C1|split; [|split; [|split]]]].
        * apply (fresh_constraint d cur src dest Od CR SEP x q t c); try assumption; [apply steady_names; exact J|].
          intros dt0 E0. rewrite E in E0. injection E0 as <-. split; [exact Nc'|]. intros _. rewrite S3. exact Ni.
        * intros n Hn. rewrite S1. unfold not_null. pose proof (HC n (C2 n Hn)) as Z. destruct (forced L (c :: l) n); [|exact Z].
          destruct (cols n); [discriminate|congruence].
        * intros -> P. destruct (CR q t Lt) as (_ & _ & _ & _ & CP & _). exact (CP c Ht P eq_refl).
        * intros P n k Z. rewrite S2 in Z.
          refine (one_primary L c l (fun c => c) cons n k _ R _ P Z); [intros c0 H0; apply HL; exact H0|reflexivity].
        * intro F. destruct (key_not_foreign c Kc F).
      + cbn [effect]. rewrite W. apply change_at_is. exact E.
      + apply (fine_change q dt); [apply J; exact E| |]; intros n k Z; cbn in Z; [|auto].
        unfold put in Z. destruct (beqb_spec n (con_name c)) as [->|]; [|auto]. injection Z as <-. right. split; [reflexivity|].
        split; [apply known_own; exact Ht|]. intro F. destruct (key_not_foreign c Kc F).
      + split; [exact R'|]. split; [|split; [|exact S3]].
        * intro n. rewrite with_constraint_columns, S1, not_null_twice, (forced_step L c l n N Hc (proj2 R)). reflexivity.
        * intro n. cbn. rewrite <- (updated_step con_name L Some c l cons n N Hc (proj2 R)).
          unfold put. destruct (beqb n (con_name c)); [reflexivity|]. apply S2.
    - split; [apply rest_start; exact N|]. destruct SH as (S1 & S2 & S3). split; [|split; [|exact S3]].
      + intro n. rewrite forced_start. apply S1.
      + intro n. rewrite updated_start. apply S2. }
  eapply leads_imp; [exact G|]. intros dt' _ (_ & H). exact H.
Qed.

(** Postgres: a unique index is created first. *)
Lemma add_indexed_keys_lead : forall L w x dt cols cons ixs, place cur w = q -> d = Postgres ->
  NoDup (map con_name L) -> (forall c, In c L -> missing_key cons c /\ no_index ixs c) ->
  (forall n, in_columns n -> cols n <> None) ->
  steady x -> db_tables x q = Some dt -> shape cols cons ixs dt ->
  leads (flat_map (fun c => [QCreateIndex (at_owner cur c) (key_index c) true; QAddUsingIndex w c]) L) q x
    (shape (fun n => not_null (forced L [] n) (cols n)) (updated con_name L (fun c => Some (with_flags false false c)) [] cons) ixs).
Proof.
  intros L w x dt cols cons ixs W ED N HL HC J E SH. set (g := fun c => Some (with_flags false false c)).
  set (f := fun c => [QCreateIndex (at_owner cur c) (key_index c) true; QAddUsingIndex w c]).
  pose (Q l dt := rest con_name L l /\ shape (fun n => not_null (forced L l n) (cols n)) (updated con_name L g l cons) ixs dt).
  assert (G : leads (flat_map f L) q x (Q [])).
  { eapply leads_loop; [|exact J|exact E|].
    - clear x dt J E SH. intros c l x dt J E (R & S1 & S2 & S3). destruct (rest_tail _ _ _ _ R) as (Hc & R').
      destruct (HL c Hc) as ((Ht & Kc & Nc & Np) & Ni). destruct (key_columns c Ht Kc) as (C1 & C2).
      assert (Nc' : dt_constraints dt (con_name c) = None) by (rewrite S2, updated_here; exact Nc).
      assert (Ni' : dt_indexes dt (con_name c) = None) by (rewrite S3; exact Ni).
      assert (FC : fresh d x (OConstraint q c)).
      { apply (fresh_constraint d cur src dest Od CR SEP x q t c); try assumption; [apply steady_names; exact J|].
        intros dt0 E0. rewrite E in E0. injection E0 as <-. auto. }
      assert (W' : place cur (at_owner cur c) = q).
      { destruct (con_facts _ Od _ _ _ Lt Ht) as (_ & _ & O). unfold at_owner. rewrite place_qualify; [exact O|].
        destruct (orderly_schema _ Od _ _ Lt) as (_ & Z). rewrite <- O in Z. exact Z. }
      unfold f. change ([QCreateIndex (at_owner cur c) (key_index c) true; QAddUsingIndex w c])
        with ([QCreateIndex (at_owner cur c) (key_index c) true] ++ [QAddUsingIndex w c]).
      eapply leads_app with (P := fun dt' => dt' = put_index (con_name c) (Some (key_index c)) dt).
      + eapply leads_one; [exact J|exact E| | | |reflexivity].
        * cbn [allowed]. exists dt. rewrite W'. split; [exact E|]. split; [|split].
          -- intros o' k Ho K. apply (FC o' k Ho). rewrite ED in K |- *. cbn [entries_of key_index ix_name] in *. right.
             rewrite (proj2 (is_a_key_spec c) Kc). exact K.
          -- cbn [key_index ix_columns]. exact C1.
          -- split; [|intros n []]. cbn [key_index ix_columns]. intros n Hn. left. rewrite S1. unfold not_null.
             pose proof (HC n (C2 n Hn)) as Z. destruct (forced L (c :: l) n); [|exact Z]. destruct (cols n); [discriminate|congruence].
        * cbn [effect key_index ix_name]. rewrite W'. apply change_at_is. exact E.
        * apply (fine_change q dt); [apply J; exact E| |]; intros n k Z; cbn in Z; [auto|].
          unfold put in Z. destruct (beqb_spec n (con_name c)) as [->|]; [|auto]. injection Z as <-. right. split; [reflexivity|].
          right. split; [exact ED|]. exists t, c. auto.
      + intros y dty Jy Ey ->.
        eapply leads_one with (dt' := with_constraint (with_flags false false c) (put_index (con_name c) None (put_index (con_name c) (Some (key_index c)) dt)));
          [exact Jy|exact Ey| | | |].
        * cbn [allowed]. exists (put_index (con_name c) (Some (key_index c)) dt). rewrite W. split; [exact Ey|].
          split; [apply (con_facts _ Od _ _ _ Lt Ht)|]. split; [exact Kc|]. split; [exact Nc'|]. split; [|split].
          -- exists (key_index c). cbn. unfold put. rewrite beqb_refl. auto.
          -- rewrite (change_at_is _ _ _ _ Ey).
             apply (fresh_constraint d cur src dest Od CR SEP _ q t c); try assumption.
             ++ apply steady_names. apply (ok_set_table fine y q _ Jy). apply (fine_change q _ _ (Jy _ _ Ey)); intros n k Z; cbn in Z; [auto|].
                unfold put in Z. cbn. unfold put. destruct (beqb n (con_name c)); [discriminate|auto].
             ++ intros dt0 E0. rewrite set_table_at in E0. injection E0 as <-. cbn. split; [exact Nc'|]. intros _. unfold put. rewrite beqb_refl. reflexivity.
          -- intros P n k Z. cbn in Z. rewrite S2 in Z.
             refine (one_primary L c l (with_flags false false) cons n k _ R _ P Z); [intros c0 H0; apply HL; exact H0|reflexivity].
        * cbn [effect]. rewrite W. rewrite (change_at_is _ _ _ _ Ey). reflexivity.
        * apply (fine_change q _ _ (Jy _ _ Ey)); intros n k Z; cbn in Z.
          -- unfold put in Z. destruct (beqb_spec n (con_name c)) as [->|]; [|auto]. injection Z as <-. right. split; [reflexivity|].
             split; [|intro F; destruct (key_not_foreign c Kc F)]. left. exists dest, t, c. split; [right; reflexivity|]. auto.
          -- unfold put in Z. cbn. unfold put. destruct (beqb n (con_name c)); [discriminate|auto].
        * split; [exact R'|]. split; [|split].
          -- intro n. rewrite with_constraint_columns. cbn [put_index dt_columns con_type con_columns with_flags].
             rewrite S1, not_null_twice, (forced_step L c l n N Hc (proj2 R)). reflexivity.
          -- intro n. cbn. rewrite <- (updated_step con_name L g c l cons n N Hc (proj2 R)).
             unfold put. destruct (beqb n (con_name c)); [reflexivity|]. apply S2.
          -- intro n. cbn. unfold put. destruct (beqb_spec n (con_name c)) as [->|]; [symmetry; exact Ni|]. apply S3.
    - split; [apply rest_start; exact N|]. destruct SH as (S1 & S2 & S3). split; [|split; [|exact S3]].
      + intro n. rewrite forced_start. apply S1.
      + intro n. rewrite updated_start. apply S2. }
  eapply leads_imp; [exact G|]. intros dt' _ (_ & H). exact H.
Qed.
End Alter.
