(** Proofs about reading extensions, enums, domains and routines. *)
From Coq Require Import Permutation.
From Verif Require Import GoStr GoStrFacts SpecCsv ModelCatalog ModelCache CacheFacts ModelDump ModelWipe ModelTriggers ModelIntrospect SpecLive IntrospectFacts IntrospectDb ModelExtras SpecExtras.

(** ** Objects are added to their schemas *)
Lemma in_schema_app {A} (g : place -> list A) l1 l2 s : in_schema g (l1 ++ l2) s = in_schema g l1 s ++ in_schema g l2 s.
Proof. apply flat_map_app. Qed.
Lemma in_schema_none {A} (g : place -> list A) l s : ~ In s (map pl_name l) -> in_schema g l s = [].
Proof.
  induction l as [|p l IH]; intros H; [reflexivity|]. cbn [in_schema flat_map]. destruct (beqb_spec (pl_name p) s) as [E|E].
  - exfalso. apply H. left. exact E.
  - cbn [app]. apply IH. intros X. apply H. right. exact X.
Qed.
Lemma set_nth_split {A} (l1 l2 : list A) a b : set_nth (List.length l1) b (l1 ++ a :: l2) = l1 ++ b :: l2.
Proof. induction l1; cbn; congruence. Qed.

Section Items.
Context {A : Type} (get : place -> list A) (set : place -> list A -> place) (key_of : A -> key).
Hypothesis get_set : forall p l, get (set p l) = l.
Hypothesis set_name : forall p l, pl_name (set p l) = pl_name p.
Hypothesis get_new : forall s, get (Place s [] [] []) = [].

(** The positions of the schemas are right. *)
Definition places_ok (places : list place) (ms : kmap) : Prop :=
  NoDup (map pl_name places)
  /\ (forall s i, ms [s] = Some i -> exists p, nth_error places i = Some p /\ pl_name p = s)
  /\ (forall s, In s (map pl_name places) -> ms [s] <> None).

Lemma add_item_new places ms (m : kmap) s a : places_ok places ms -> m (s :: key_of a) = None ->
  exists places' ms', add_item get set key_of (places, ms, m) (s, a) = Ok (places', ms', upd m (s :: key_of a) (Some (List.length (in_schema get places s))))
    /\ places_ok places' ms'
    /\ (forall s', In s' (map pl_name places') <-> In s' (map pl_name places) \/ s' = s)
    /\ (forall s', in_schema get places' s' = in_schema get places s' ++ (if beqb s s' then [a] else []))
    /\ (forall C (g : place -> list C), (forall p l, g (set p l) = g p) -> (forall s, g (Place s [] [] []) = []) ->
          forall s', in_schema g places' s' = in_schema g places s').
Proof.
  intros (Nd & Pos & Dom) Hm. unfold add_item, get_or_create, add_or_update, at_pos. cbn [bindr].
  destruct (ms [s]) as [i|] eqn:Ei.
  - destruct (Pos s i Ei) as (p & Ep & Np). rewrite Ep. cbn [bindr]. rewrite Ep, Np, Hm. cbn [bindr enter].
    apply nth_error_split in Ep as (l1 & l2 & -> & <-). rewrite set_nth_split.
    assert (U1 : ~ In s (map pl_name l1) /\ ~ In s (map pl_name l2)).
    { rewrite map_app in Nd. cbn [map] in Nd. apply NoDup_remove in Nd as [_ Nd]. rewrite Np, in_app_iff in Nd. tauto. }
    destruct U1 as [U1 U2]. 
    assert (At : forall C (g : place -> list C) q, pl_name q = s -> in_schema g (l1 ++ q :: l2) s = g q).
    { intros C g q Nq. rewrite in_schema_app. rewrite (in_schema_none g l1 s U1). cbn [app in_schema flat_map]. fold (in_schema g l2 s). rewrite Nq, beqb_refl, (in_schema_none g l2 s U2). apply app_nil_r. }
    assert (Away : forall C (g : place -> list C) q s', pl_name q = s -> s' <> s -> in_schema g (l1 ++ q :: l2) s' = in_schema g l1 s' ++ in_schema g l2 s').
    { intros C g q s' Nq Ns. rewrite in_schema_app. f_equal. cbn [in_schema flat_map]. rewrite Nq. destruct (beqb_spec s s'); [congruence|]. reflexivity. }
    assert (Nq : pl_name (set p (get p ++ [a])) = s) by (rewrite set_name; exact Np).
    exists (l1 ++ set p (get p ++ [a]) :: l2), ms. split; [|split; [|split; [|split]]].
    + rewrite At by exact Np. reflexivity.
    + assert (Nm : map pl_name (l1 ++ set p (get p ++ [a]) :: l2) = map pl_name (l1 ++ p :: l2)) by (rewrite !map_app; cbn [map]; rewrite set_name; reflexivity).
      split; [rewrite Nm; exact Nd|]. split; [|rewrite Nm; exact Dom].
      intros s' j Ej. destruct (Pos s' j Ej) as (q & Eq & Nq'). assert (X : nth_error (map pl_name (l1 ++ set p (get p ++ [a]) :: l2)) j = Some s').
      { rewrite Nm. rewrite nth_error_map, Eq. cbn. congruence. }
      rewrite nth_error_map in X. destruct (nth_error (l1 ++ set p (get p ++ [a]) :: l2) j) as [q'|]; [|discriminate X]. exists q'. split; [reflexivity|]. cbn in X. congruence.
    + intros s'. rewrite !map_app. cbn [map]. rewrite set_name, !in_app_iff. cbn [In]. rewrite Np. intuition.
    + intros s'. destruct (beqb_spec s s') as [<-|Ns].
      * rewrite !At by assumption. rewrite get_set. reflexivity.
      * rewrite !Away by congruence. rewrite app_nil_r. reflexivity.
    + intros C g G1 G2 s'. destruct (beqb_spec s s') as [<-|Ns].
      * rewrite !At by assumption. apply G1.
      * rewrite !Away by congruence. reflexivity.
  - cbn [bindr]. rewrite nth_last. cbn [pl_name]. rewrite Hm. cbn [bindr enter]. rewrite get_new. cbn [app List.length].
    assert (Ns : ~ In s (map pl_name places)) by (intros X; exact (Dom s X Ei)).
    exists (places ++ [set (Place s [] [] []) [a]]), (upd ms [s] (Some (List.length places))). split; [|split; [|split; [|split]]].
    + rewrite (in_schema_none get places s Ns). cbn [List.length]. rewrite set_nth_split. reflexivity.
    + split; [|split].
      * rewrite map_app. cbn [map]. rewrite set_name. cbn [pl_name]. apply (Permutation_NoDup (Permutation_cons_append _ _)). constructor; assumption.
      * intros s' i. unfold upd. destruct (keqb [s] [s']) eqn:Ek.
        -- apply cache_key_eq in Ek as [= <-]. intros [= <-]. exists (set (Place s [] [] []) [a]). split; [apply nth_last|rewrite set_name; reflexivity].
        -- intros X. destruct (Pos s' i X) as (p & Ep & Np). exists p. split; [|exact Np]. rewrite nth_error_app1; [exact Ep|]. apply nth_error_Some. congruence.
      * intros s'. rewrite map_app, in_app_iff. cbn [map In]. rewrite set_name. cbn [pl_name]. unfold upd. destruct (keqb [s] [s']) eqn:Ek; [discriminate|].
        intros [X|[X|[]]]; [exact (Dom s' X)|]. subst s'. rewrite keqb_refl in Ek. discriminate Ek.
    + intros s'. rewrite map_app, in_app_iff. cbn [map In]. rewrite set_name. cbn [pl_name]. intuition.
    + intros s'. rewrite in_schema_app. f_equal. cbn [in_schema flat_map]. rewrite set_name, get_set. cbn [pl_name]. destruct (beqb s s'); reflexivity.
    + intros C g G1 G2 s'. rewrite in_schema_app. cbn [in_schema flat_map]. rewrite set_name, G1, G2. cbn [pl_name]. destruct (beqb s s'); apply app_nil_r.
Qed.

Definition row_key (r : bytes * A) : key := fst r :: key_of (snd r).
Definition rows_at (L : list (bytes * A)) (s : bytes) : list A := map snd (filter (fun r => beqb (fst r) s) L).
Lemma rows_at_cons r L s : rows_at (r :: L) s = (if beqb (fst r) s then [snd r] else []) ++ rows_at L s.
Proof. unfold rows_at. cbn [filter]. destruct (beqb (fst r) s); reflexivity. Qed.

Lemma add_rows L : forall places ms (m : kmap), places_ok places ms -> NoDup (map row_key L) -> (forall r, In r L -> m (row_key r) = None) ->
  exists places' ms' m', each_row (add_item get set key_of) (places, ms, m) L = Ok (places', ms', m')
    /\ places_ok places' ms'
    /\ (forall s', In s' (map pl_name places') <-> In s' (map pl_name places) \/ In s' (map fst L))
    /\ (forall s', in_schema get places' s' = in_schema get places s' ++ rows_at L s')
    /\ (forall C (g : place -> list C), (forall p l, g (set p l) = g p) -> (forall s, g (Place s [] [] []) = []) ->
          forall s', in_schema g places' s' = in_schema g places s').
Proof.
  induction L as [|[s a] L IH]; intros places ms m Ok_ Nd Fr.
  - exists places, ms, m. split; [reflexivity|]. split; [exact Ok_|]. split; [cbn; tauto|]. split; [intros; symmetry; apply app_nil_r|reflexivity].
  - cbn [map row_key fst snd] in Nd. inversion Nd as [|? ? Nk Nd']; subst.
    destruct (add_item_new places ms m s a Ok_ (Fr _ (or_introl eq_refl))) as (p1 & ms1 & E1 & Ok1 & N1 & G1 & O1).
    cbn [each_row]. rewrite E1. cbn [bindr].
    destruct (IH p1 ms1 (upd m (s :: key_of a) (Some (List.length (in_schema get places s)))) Ok1 Nd') as (p2 & ms2 & m2 & E2 & Ok2 & N2 & G2 & O2).
    { intros r Ir. unfold upd. destruct (keqb (s :: key_of a) (row_key r)) eqn:Ek; [|apply Fr; right; exact Ir].
      exfalso. apply cache_key_eq in Ek. apply Nk. apply in_map_iff. exists r. split; [symmetry; exact Ek|exact Ir]. }
    exists p2, ms2, m2. split; [exact E2|]. split; [exact Ok2|]. split; [|split].
    + intros s'. rewrite N2, N1. cbn [map fst In]. intuition.
    + intros s'. rewrite G2, G1, rows_at_cons. cbn [fst snd]. apply app_assoc_reverse.
    + intros C g g1 g2 s'. rewrite (O2 C g g1 g2), (O1 C g g1 g2). reflexivity.
Qed.
Lemma add_items_ok L places ms : places_ok places ms -> NoDup (map row_key L) ->
  exists places' ms', add_items get set key_of (places, ms) L = Ok (places', ms')
    /\ places_ok places' ms'
    /\ (forall s', In s' (map pl_name places') <-> In s' (map pl_name places) \/ In s' (map fst L))
    /\ (forall s', in_schema get places' s' = in_schema get places s' ++ rows_at L s')
    /\ (forall C (g : place -> list C), (forall p l, g (set p l) = g p) -> (forall s, g (Place s [] [] []) = []) ->
          forall s', in_schema g places' s' = in_schema g places s').
Proof.
  intros P Nd. destruct (add_rows L places ms (fun _ => None) P Nd (fun _ _ => eq_refl)) as (p & m1 & m2 & E & R).
  exists p, m1. split; [|exact R]. exact (f_equal (fun r : result held => bindr r (fun '(st, _) => Ok st)) E).
Qed.
End Items.

(** ** Rows of the schemas *)
Definition spread {A} (db : live) (R : home -> list A) : list (bytes * A) :=
  flat_map (fun h => map (fun c => (hm_name h, c)) (R h)) (lv_homes db).
Lemma spread_at {A} db (R : home -> list A) s : rows_at (spread db R) s = flat_map (fun h => if beqb (hm_name h) s then R h else []) (lv_homes db).
Proof.
  unfold spread. induction (lv_homes db) as [|h l IH]; [reflexivity|]. cbn [flat_map]. rewrite <- IH. clear IH. unfold rows_at. rewrite filter_app, map_app. f_equal.
  induction (R h) as [|c r IH]; [destruct (beqb _ _); reflexivity|]. cbn [map filter fst]. destruct (beqb (hm_name h) s); cbn [map snd]; congruence.
Qed.
Lemma spread_keys {A} (key_of : A -> key) db (R : home -> list A) : NoDup (map hm_name (lv_homes db)) ->
  (forall h, In h (lv_homes db) -> NoDup (map key_of (R h))) -> NoDup (map (row_key key_of) (spread db R)).
Proof.
  unfold spread. induction (lv_homes db) as [|h l IH]; intros Nd Hk; [constructor|]. cbn [map] in Nd. inversion Nd as [|? ? Nh Nl]; subst.
  cbn [flat_map]. rewrite map_app. specialize (IH Nl (fun h' I => Hk h' (or_intror I))). specialize (Hk h (or_introl eq_refl)).
  assert (Fr : forall k, In (hm_name h :: k) (map (row_key key_of) (flat_map (fun h => map (fun c => (hm_name h, c)) (R h)) l)) -> False).
  { intros k I. apply in_map_iff in I as (x & Ex & I). apply in_flat_map in I as (h' & Ih & I). apply in_map_iff in I as (c & <- & _). injection Ex as En _.
    apply Nh. rewrite <- En. apply in_map, Ih. }
  induction (R h) as [|c r IHr]; [exact IH|]. cbn [map app] in *. inversion Hk as [|? ? Nc Nr]; subst. constructor; [|exact (IHr Nr)].
  rewrite in_app_iff. intros [I|I].
  - apply in_map_iff in I as (x & Ex & I). apply in_map_iff in I as (c' & <- & I). injection Ex as Ek. apply Nc. rewrite <- Ek. apply in_map, I.
  - exact (Fr _ I).
Qed.
Lemma spread_ext {A} db (R R' : home -> list A) : (forall h, In h (lv_homes db) -> R h = R' h) -> spread db R = spread db R'.
Proof.
  unfold spread. induction (lv_homes db) as [|h l IH]; intros H; [reflexivity|]. cbn [flat_map]. rewrite (H h (or_introl eq_refl)). f_equal. apply IH. intros h' I. apply H. right. exact I.
Qed.
Lemma spread_nil {A} db : @spread A db (fun _ => []) = [].
Proof. unfold spread. induction (lv_homes db); [reflexivity|assumption]. Qed.
Lemma home_rows_spread {A C} db sel (get : home -> list A) (rows : A -> list C) :
  home_rows db sel get rows = spread db (fun h => if sel h then flat_map rows (get h) else []).
Proof.
  unfold home_rows, spread. apply flat_map_ext. intros h. destruct (sel h); [|reflexivity]. induction (get h) as [|a l IH]; [reflexivity|]. cbn [flat_map]. rewrite map_app. congruence.
Qed.
Lemma flat_single {A C} (rows : A -> list C) (g : A -> C) l : (forall a, In a l -> rows a = [g a]) -> flat_map rows l = map g l.
Proof. induction l as [|a l IH]; intros H; [reflexivity|]. cbn [flat_map map]. rewrite (H a (or_introl eq_refl)). cbn [app]. f_equal. apply IH. intros x I. apply H. right. exact I. Qed.
Lemma filter_all {A} (f : A -> bool) l : (forall a, In a l -> f a = true) -> filter f l = l.
Proof. induction l as [|a l IH]; intros H; [reflexivity|]. cbn [filter]. rewrite (H a (or_introl eq_refl)). f_equal. apply IH. intros x I. apply H. right. exact I. Qed.
Lemma filter_none {A} (f : A -> bool) l : (forall a, In a l -> f a = false) -> filter f l = [].
Proof. induction l as [|a l IH]; intros H; [reflexivity|]. cbn [filter]. rewrite (H a (or_introl eq_refl)). apply IH. intros x I. apply H. right. exact I. Qed.
Lemma unix_lf s : lf_of s (unix_lines s).
Proof.
  assert (H : forall n s, List.length s <= n -> lf_of s (unix_lines s)); [|eapply H; reflexivity]. clear s.
  induction n as [|n IH]; intros [|c s] L; cbn in L; try lia; try constructor. cbn [unix_lines]. destruct s as [|b s].
  - apply lf_char; [constructor|]. right. discriminate.
  - destruct (ceqb_spec c CR) as [->|Nc]; cbn [andb].
    + destruct (ceqb_spec b LF) as [->|Nb].
      * assert (X : unix_lines (LF :: s) = LF :: unix_lines s) by (destruct s; reflexivity). rewrite X. apply lf_crlf. apply IH. cbn in L. lia.
      * apply lf_char; [apply IH; cbn in *; lia|]. right. intros r [= E _]. contradiction.
    + apply lf_char; [apply IH; cbn in *; lia|]. left. exact Nc.
Qed.
Lemma map_result_app {A C} (h : A -> result C) l1 l2 r1 r2 : map_result h l1 = Ok r1 -> map_result h l2 = Ok r2 -> map_result h (l1 ++ l2) = Ok (r1 ++ r2).
Proof.
  revert r1. induction l1 as [|a l1 IH]; intros r1 H1 H2; cbn in H1; [injection H1 as <-; exact H2|].
  cbn [app map_result]. destruct (h a) as [c| |]; cbn [bindr] in *; try discriminate. destruct (map_result h l1) as [r| |]; cbn [bindr] in *; try discriminate.
  injection H1 as <-. rewrite (IH r eq_refl H2). reflexivity.
Qed.
Lemma dialect_eq_dec (a b : dialect) : {a = b} + {a <> b}. Proof. decide equality. Qed.

(** ** What is in scope is wanted *)
Section Read.
Context (d : dialect) (f : extra_choice) (db : live).
Hypothesis OK : live_ok d db.
Hypothesis CL : clear_extras d f db.

Lemma not_other : d <> Other. Proof. apply OK. Qed.
Lemma asked_is k : included f k = asked f k. Proof. reflexivity. Qed.
Lemma home_listed h : In h (lv_homes db) -> schema_listed d (hm_name h) = negb (system_home d (hm_name h)).
Proof.
  intros Ih. destruct CL as (_ & _ & Pg & _). unfold schema_listed, system_home. destruct d; try reflexivity.
  - rewrite (like_clear (B"pg") (hm_name h)) by (apply Pg; auto). symmetry. apply negb_orb.
Qed.
Lemma home_in_scope h : In h (lv_homes db) -> schema_in_scope d f (hm_name h) = wanted_home d f (hm_name h).
Proof.
  intros Ih. unfold schema_in_scope, wanted_home. rewrite (home_listed h Ih). f_equal. destruct CL as ((Cs & _) & _). apply listed_chosen. exact Cs.
Qed.
Lemma in_of_home {A} h s (get : home -> list A) sel a : In h (lv_homes db) -> hm_name h = s -> In a (filter sel (get h)) -> In a (of_home db s get sel).
Proof. intros Ih <- I. unfold of_home. apply in_flat_map. exists h. split; [exact Ih|]. rewrite beqb_refl. exact I. Qed.

Lemma extensions_ok : when (included f (B"EXTENSIONS")) (get_extensions d f db) = Ok (wanted_extensions f db).
Proof.
  unfold when, wanted_extensions. rewrite asked_is. destruct (asked f _); [|reflexivity]. destruct CL as ((_ & _ & Ce & _) & _).
  destruct OK as (No & Ne & _). unfold get_extensions. destruct d; try (rewrite Ne by discriminate; reflexivity); try contradiction.
  rewrite bad_list_clear by exact Ce. f_equal. apply filter_ext. intros n. apply listed_chosen. exact Ce.
Qed.
Lemma comment_read c : commented db c -> type_comment (lv_dbname db) c = c.
Proof. unfold type_comment. intros [->| ->]; [destruct (beqb _ _); reflexivity|rewrite beqb_refl; reflexivity]. Qed.
Lemma enums_ok : exists R, when (included f (B"ENUMS")) (get_enums d f db) = Ok (spread db R)
  /\ forall h, In h (lv_homes db) -> R h = map (fun e => (le_enum e, le_comment e))
       (filter (fun e => asked f (B"ENUMS") && wanted_home d f (hm_name h) && chosen (x_enums f) (x_exenums f) (en_name (le_enum e))) (hm_enums h)).
Proof.
  unfold when. rewrite asked_is. destruct (asked f (B"ENUMS")) eqn:Ea.
  2:{ exists (fun _ => []). rewrite spread_nil. split; [reflexivity|]. intros h _. rewrite filter_none by reflexivity. reflexivity. }
  pose proof CL as ((Cs & _ & _ & Cf & _) & Ct & _). destruct (Cf Ea) as [F1 F2].
  assert (Np : d <> Postgres -> exists R, @Ok (list (bytes * (enum * bytes))) [] = Ok (spread db R) /\ forall h, In h (lv_homes db) -> R h = map (fun e => (le_enum e, le_comment e))
       (filter (fun e => true && wanted_home d f (hm_name h) && chosen (x_enums f) (x_exenums f) (en_name (le_enum e))) (hm_enums h))).
  { intros N. exists (fun _ => []). rewrite spread_nil. split; [reflexivity|]. intros h Ih. destruct OK as (_ & _ & _ & Fh). rewrite Forall_forall in Fh. destruct (Fh h Ih) as (E & _). rewrite (proj1 (E N)). reflexivity. }
  unfold get_enums. destruct d eqn:Ed; try (apply Np; discriminate). rewrite <- Ed in *. clear Np.
  unfold bad_schemas. rewrite (bad_list_clear _ _ Cs). rewrite F1, F2. cbn [some_filter orb].
  rewrite home_rows_spread. eexists. split; [reflexivity|]. cbv beta. intros h Ih. rewrite (home_in_scope h Ih). cbn [andb].
  destruct (wanted_home d f (hm_name h)) eqn:Ew; [|rewrite filter_none by reflexivity; reflexivity].
  rewrite filter_all by reflexivity. apply flat_single. intros e Ie. destruct (Ct (hm_name h)) as [Te _]. destruct (Te e) as [L C].
  { apply (in_of_home h); [exact Ih|reflexivity|]. apply filter_In. split; [exact Ie|]. rewrite Ea, Ew, F1, F2. reflexivity. }
  unfold enum_row. rewrite (comment_read _ C). destruct (en_labels (le_enum e)); [contradiction|reflexivity].
Qed.
Definition want_domain (o : live_domain) : domain * bytes :=
  (Domain (ld_name o) (ld_type o) (ld_collation o) (ld_notnull o) (ld_default o)
         (map (fun c => fst (fst c)) (ld_checks o)) (map (fun c => B"(" ++ snd (fst c) ++ B")") (ld_checks o)), ld_comment o).
Lemma domains_ok : exists R, when (included f (B"DOMAINS")) (get_domains d f db) = Ok (spread db R)
  /\ forall h, In h (lv_homes db) -> R h = map want_domain
       (filter (fun o => asked f (B"DOMAINS") && wanted_home d f (hm_name h) && chosen (x_domains f) (x_exdomains f) (ld_name o)) (hm_domains h)).
Proof.
  unfold when. rewrite asked_is. destruct (asked f (B"DOMAINS")) eqn:Ea.
  2:{ exists (fun _ => []). rewrite spread_nil. split; [reflexivity|]. intros h _. rewrite filter_none by reflexivity. reflexivity. }
  pose proof CL as ((Cs & _ & _ & _ & Cf) & Ct & _). destruct (Cf Ea) as [F1 F2].
  assert (Np : d <> Postgres -> exists R, @Ok (list (bytes * (domain * bytes))) [] = Ok (spread db R) /\ forall h, In h (lv_homes db) -> R h = map want_domain
       (filter (fun o => true && wanted_home d f (hm_name h) && chosen (x_domains f) (x_exdomains f) (ld_name o)) (hm_domains h))).
  { intros N. exists (fun _ => []). rewrite spread_nil. split; [reflexivity|]. intros h Ih. destruct OK as (_ & _ & _ & Fh). rewrite Forall_forall in Fh. destruct (Fh h Ih) as (E & _). rewrite (proj2 (E N)). reflexivity. }
  unfold get_domains. destruct d eqn:Ed; try (apply Np; discriminate). rewrite <- Ed in *. clear Np.
  unfold bad_schemas. rewrite (bad_list_clear _ _ Cs). rewrite F1, F2. cbn [some_filter orb].
  rewrite home_rows_spread. eexists. split; [reflexivity|]. cbv beta. intros h Ih. rewrite (home_in_scope h Ih). cbn [andb].
  destruct (wanted_home d f (hm_name h)) eqn:Ew; [|rewrite filter_none by reflexivity; reflexivity].
  rewrite filter_all by reflexivity. apply flat_single. intros o Io. destruct (Ct (hm_name h)) as [_ Td]. destruct (Td o) as (Nc & Va & C).
  { apply (in_of_home h); [exact Ih|reflexivity|]. apply filter_In. split; [exact Io|]. rewrite Ea, Ew, F1, F2. reflexivity. }
  unfold domain_row, want_domain. rewrite (comment_read _ C).
  assert (X : map (fun e => trim_prefix e (B"CHECK ")) (map domain_check_text (ld_checks o)) = map (fun c => B"(" ++ snd (fst c) ++ B")") (ld_checks o)).
  { rewrite map_map. apply map_ext_in. intros [[n e] v] Ic. specialize (Va _ Ic). cbn in Va. subst v. cbn [domain_check_text fst snd]. rewrite app_nil_r. reflexivity. }
  destruct (ld_checks o) as [|c l] eqn:El; [contradiction|]. rewrite X. reflexivity.
Qed.

(** ** Routines *)
Ltac cases :=
  repeat match goal with
  | |- context [negb ?b] => match b with true => fail 1 | false => fail 1 | _ => destruct b end; cbn
  | |- context [chosen ?a ?b ?c] => destruct (chosen a b c); cbn
  end; reflexivity.
Lemma wanted_clear h r : In h (lv_homes db) -> In r (hm_routines h) -> routine_wanted d f (hm_name h) r = true -> clear_routine d (hm_routines h) r.
Proof.
  intros Ih Ir W. destruct CL as (_ & _ & _ & _ & Cr). destruct (Cr (hm_name h) r) as (C1 & C2 & C3).
  { apply (in_of_home h); [exact Ih|reflexivity|]. apply filter_In. auto. }
  split; [exact C1|]. split; [exact C2|]. intros E. destruct (C3 E) as [C4 C5]. split; [exact C4|]. intros r' Ir' En. apply C5; [|exact En].
  apply (in_of_home h); [exact Ih|reflexivity|]. apply filter_In. auto.
Qed.
Lemma routine_scope h r : asked f (B"ROUTINES") = true -> In h (lv_homes db) -> In r (hm_routines h) ->
  routine_in_scope d f h r = routine_wanted d f (hm_name h) r.
Proof.
  intros Ea Ih Ir. pose proof CL as ((Cs & Cr & _) & _ & _ & Sp & _). pose proof (wanted_clear h r Ih Ir) as W.
  unfold routine_in_scope. unfold routine_wanted, wanted_home in *. rewrite (home_listed h Ih), !listed_chosen by assumption. rewrite Ea in *. cbn [andb] in *.
  destruct d eqn:Ed; rewrite <- Ed in *; unfold system_routine in *; rewrite Ed in *.
  - destruct (x_system f); cbn [orb negb andb]; rewrite ?andb_true_r; cases.
  - destruct (x_system f); cbn [orb negb andb]; rewrite ?andb_true_r; cases.
  - assert (X : has_param_rows h (lr_name r) = true -> True) by auto. clear X.
    match goal with |- _ && _ && _ && ?x = _ => assert (X : (x_system f || negb (system_home MySQL (hm_name h))) && chosen (x_schemas f) (x_exschemas f) (hm_name h) && (x_system f || negb false) && chosen (x_routines f) (x_exroutines f) (lr_name r) && true = true -> x = true) end.
    { intros X. destruct (W X) as (_ & _ & C). destruct (C eq_refl) as [C1 _]. unfold has_param_rows. apply existsb_exists. exists r. split.
      - unfold name_sakes. apply filter_In. split; [exact Ir|apply beqb_refl].
      - destruct (lr_kind r), (lr_params r); try reflexivity; contradiction. }
    destruct (x_system f), (system_home MySQL (hm_name h)), (chosen (x_schemas f) (x_exschemas f) (hm_name h)), (chosen (x_routines f) (x_exroutines f) (lr_name r)); cbn in *; auto.
  - rewrite (like_clear (B"sp") (to_lower (lr_name r))) by (eapply Sp; eauto). destruct (x_system f); cbn [orb negb andb]; rewrite ?andb_true_r; cases.
  - destruct (x_system f); cbn [orb negb andb]; rewrite ?andb_true_r; cases.
Qed.
Lemma name_sake h r : d = MySQL -> In h (lv_homes db) -> In r (hm_routines h) -> clear_routine d (hm_routines h) r -> name_sakes h (lr_name r) = [r].
Proof.
  intros Ed Ih Ir (_ & _ & C). destruct (C Ed) as [_ C1]. destruct OK as (_ & _ & _ & Fh). rewrite Forall_forall in Fh. destruct (Fh h Ih) as (_ & _ & _ & Nd & _). rewrite Ed in Nd.
  unfold name_sakes. revert Ir C1 Nd. clear. induction (hm_routines h) as [|x l IH]; [contradiction|]. cbn [map filter]. intros [->|I] C Nd; inversion Nd as [|? ? N1 N2]; subst.
  - rewrite beqb_refl. f_equal. apply filter_none. intros y Iy. destruct (beqb_spec (lr_name y) (lr_name r)) as [E|_]; [|reflexivity]. exfalso. apply N1.
    rewrite <- (C y (or_intror Iy) E), <- E. apply (in_map (fun r => (lr_name r, lr_kind r))), Iy.
  - destruct (beqb_spec (lr_name x) (lr_name r)) as [E|_].
    + exfalso. apply N1. rewrite (C x (or_introl eq_refl) E), E. apply (in_map (fun r => (lr_name r, lr_kind r))), I.
    + apply IH; auto. intros y Iy. apply C. right. exact Iy.
Qed.
Lemma nth_all {A C} (g : A -> C) l : flat_map (fun i => flat_map (fun r => match nth_error l i with Some p => [g p] | None => [] end) [tt]) (seq 0 (List.length l)) = map g l.
Proof.
  assert (H : forall l2 l1, flat_map (fun i => match nth_error (l1 ++ l2) i with Some p => [g p] | None => [] end) (seq (List.length l1) (List.length l2)) = map g l2).
  { induction l2 as [|a l2 IH]; intros l1; [reflexivity|]. cbn [List.length seq flat_map map]. rewrite nth_error_app2, Nat.sub_diag by lia. cbn [nth_error app]. f_equal.
    specialize (IH (l1 ++ [a])). rewrite <- app_assoc, app_length in IH. cbn in IH. replace (List.length l1 + 1) with (S (List.length l1)) in IH by lia. exact IH. }
  rewrite <- (H l []). apply flat_map_ext. intros i. cbn [flat_map app]. apply app_nil_r.
Qed.
Lemma joined_one r : joined_params [r] = map (param_text (lr_kind r)) (lr_params r).
Proof. unfold joined_params. cbn [map fold_right]. rewrite Nat.max_0_r. rewrite <- nth_all. reflexivity. Qed.

Definition read_of (r : live_routine) : routine :=
  let s := match lr_sql r with Some s => s | None => [] end in
  match d with
  | Postgres => Routine (lr_name r) (lr_args r) (kind_text (lr_kind r)) (unix_lines (s ++ B";")) [(B"returnType", lr_result r)] (lr_comment r)
  | MySQL =>
      Routine (lr_name r) [] (kind_text (lr_kind r)) (unix_lines s)
            [(B"returnType", lr_result r); (B"parameters", join (B"|") (map (param_text (lr_kind r)) (lr_params r))); (B"routineBody", fst (fst (lr_more r)));
             (B"isDeterministic", flag_text (lr_deterministic r)); (B"sqlDataAccess", snd (fst (lr_more r))); (B"securityType", snd (lr_more r))] (lr_comment r)
  | _ => Routine (lr_name r) [] (match lr_kind r with Procedure => B"PROCEDURE" | _ => B"FUNCTION" end) (unix_lines s) [] []
  end.
Lemma read_clear h r : d <> SQLite -> In h (lv_homes db) -> In r (hm_routines h) -> clear_routine d (hm_routines h) r -> read_routine d h r = Ok (read_of r).
Proof.
  intros Nq Ih Ir C. pose proof (fun E => name_sake h r E Ih Ir C) as Nm. destruct C as (C1 & C2 & C3). pose proof not_other as No.
  unfold read_routine, read_of. destruct (lr_sql r) as [s|]; [|contradiction]. destruct d; try contradiction.
  - destruct (lr_kind r) eqn:Ek; try reflexivity. exfalso. exact (C2 eq_refl eq_refl).
  - unfold mysql_params. rewrite (Nm eq_refl), joined_one. destruct (C3 eq_refl) as [Np _]. destruct (lr_params r) as [|p l]; [contradiction|]. cbn [map].
    destruct (lr_more r) as [[b a] c]. destruct (lr_kind r); reflexivity.
  - destruct (lr_kind r); reflexivity.
Qed.
Lemma read_same h r : d <> SQLite -> In h (lv_homes db) -> In r (hm_routines h) -> clear_routine d (hm_routines h) r -> same_routine d r (read_of r).
Proof.
  intros Nq Ih Ir C. destruct C as (C1 & C2 & C3). pose proof not_other as No. destruct OK as (_ & _ & _ & Fh). rewrite Forall_forall in Fh. destruct (Fh h Ih) as (_ & _ & _ & _ & Kd).
  unfold read_of, same_routine. destruct (lr_sql r) as [s|]; [|contradiction]. destruct d; try contradiction.
  - cbn [rt_name rt_args rt_type rt_sql rt_comment]. split; [reflexivity|]. split; [reflexivity|]. split; [exists s; split; [reflexivity|apply unix_lf]|]. auto.
  - cbn [rt_name rt_args rt_type rt_sql rt_comment]. split; [reflexivity|]. split; [reflexivity|]. split; [exists s; split; [reflexivity|apply unix_lf]|].
    split; [reflexivity|]. split.
    + unfold attr, params_text. cbn. f_equal. f_equal. apply map_ext. intros [[m n] t]. cbn [param_text]. destruct (Kd ltac:(discriminate) r Ir) as [-> | ->]; [reflexivity|]. rewrite <- app_assoc. reflexivity.
    + split; [|split; reflexivity]. exists (flag_text (lr_deterministic r)). split; [reflexivity|]. destruct (lr_deterministic r); split; try reflexivity; discriminate.
  - cbn [rt_name rt_args rt_type rt_sql rt_comment]. split; [reflexivity|]. split; [destruct (Kd ltac:(discriminate) r Ir) as [-> | ->]; reflexivity|]. split; [exists s; split; [reflexivity|apply unix_lf]|]. exact Logic.I.
Qed.
Lemma spread_result {A C} (R : home -> list A) (rd : home -> A -> result C) (g : A -> C) :
  (forall h a, In h (lv_homes db) -> In a (R h) -> rd h a = Ok (g a)) ->
  map_result (fun '(s, r) => bindr r (fun r => Ok (s, r))) (flat_map (fun h => map (fun a => (hm_name h, rd h a)) (R h)) (lv_homes db)) = Ok (spread db (fun h => map g (R h))).
Proof.
  unfold spread. intros H. induction (lv_homes db) as [|h l IH]; [reflexivity|]. cbn [flat_map].
  assert (E : map_result (fun '(s, r) => bindr r (fun r => Ok (s, r))) (map (fun a => (hm_name h, rd h a)) (R h)) = Ok (map (fun c => (hm_name h, c)) (map g (R h)))).
  { specialize (H h). induction (R h) as [|a r IHr]; [reflexivity|]. cbn [map map_result]. rewrite (H a (or_introl eq_refl) (or_introl eq_refl)). cbn [bindr].
    rewrite IHr by (intros; apply H; [assumption|right; assumption]). reflexivity. }
  apply map_result_app; [exact E|]. apply IH. intros h' a Ih. apply H. right. exact Ih.
Qed.
Lemma routines_ok : exists R, when (included f (B"ROUTINES")) (get_routines d f db) = Ok (spread db R)
  /\ forall h, In h (lv_homes db) -> R h = map read_of (filter (routine_wanted d f (hm_name h)) (hm_routines h))
       /\ forall r, In r (filter (routine_wanted d f (hm_name h)) (hm_routines h)) -> same_routine d r (read_of r).
Proof.
  unfold when. rewrite asked_is. destruct (asked f (B"ROUTINES")) eqn:Ea.
  2:{ exists (fun _ => []). rewrite spread_nil. split; [reflexivity|]. intros h _. rewrite filter_none by (intros; unfold routine_wanted; rewrite Ea; reflexivity). split; [reflexivity|contradiction]. }
  pose proof CL as ((Cs & Cr & _) & _). pose proof not_other as No.
  assert (Sq : d = SQLite -> forall h, In h (lv_homes db) -> hm_routines h = []).
  { intros Ed h Ih. destruct OK as (_ & _ & _ & Fh). rewrite Forall_forall in Fh. destruct (Fh h Ih) as (_ & _ & _ & N & _). rewrite Ed in N. exact N. }
  assert (Gen : d <> SQLite -> map_result (fun '(s, r) => bindr r (fun r => Ok (s, r))) (routine_rows d f db) = Ok (spread db (fun h => map read_of (filter (routine_in_scope d f h) (hm_routines h))))).
  { intros Nq. unfold routine_rows. apply (spread_result (fun h => filter (routine_in_scope d f h) (hm_routines h)) (read_routine d)). intros h r Ih Ir. apply filter_In in Ir as [Ir Es].
    rewrite (routine_scope h r Ea Ih Ir) in Es. apply (read_clear h r Nq Ih Ir). exact (wanted_clear h r Ih Ir Es). }
  destruct (dialect_eq_dec d SQLite) as [Eq|Nq].
  - exists (fun _ => []). rewrite spread_nil. split; [rewrite Eq; reflexivity|]. intros h Ih. rewrite (Sq Eq h Ih). split; [reflexivity|contradiction].
  - exists (fun h => map read_of (filter (routine_in_scope d f h) (hm_routines h))). split.
    + unfold get_routines, bad_schemas. rewrite !bad_list_clear by assumption. cbn [orb]. destruct d; try contradiction; exact (Gen Nq).
    + intros h Ih. split.
      * f_equal. apply filter_ext_in. intros r Ir. exact (routine_scope h r Ea Ih Ir).
      * intros r Ir. apply filter_In in Ir as [Ir W]. exact (read_same h r Nq Ih Ir (wanted_clear h r Ih Ir W)).
Qed.

(** ** All of it *)
Lemma nodup_filter_map {A K} (k : A -> K) (p : A -> bool) l : NoDup (map k l) -> NoDup (map k (filter p l)).
Proof.
  induction l as [|a l IH]; intros N; [constructor|]. cbn [map] in N. inversion N as [|? ? N1 N2]; subst. cbn [filter]. destruct (p a); [|exact (IH N2)].
  cbn [map]. constructor; [|exact (IH N2)]. intros I. apply N1. apply in_map_iff in I as (x & E & I). apply filter_In in I as [I _]. rewrite <- E. apply in_map, I.
Qed.
Lemma nodup_key {A K} (k : A -> K) (g : K -> key) l : (forall x y, g x = g y -> x = y) -> NoDup (map k l) -> NoDup (map (fun a => g (k a)) l).
Proof.
  intros Inj. induction l as [|a l IH]; intros N; [constructor|]. cbn [map] in *. inversion N as [|? ? N1 N2]; subst. constructor; [|exact (IH N2)].
  intros I. apply N1. apply in_map_iff in I as (x & E & I). apply Inj in E. rewrite <- E. apply in_map, I.
Qed.
Lemma at_home {A C} (R : home -> list A) (get : home -> list C) sel (g : C -> A) s :
  (forall h, In h (lv_homes db) -> hm_name h = s -> R h = map g (filter sel (get h))) -> rows_at (spread db R) s = map g (of_home db s get sel).
Proof.
  rewrite spread_at. unfold of_home. induction (lv_homes db) as [|h l IH]; intros H; [reflexivity|]. cbn [flat_map]. rewrite map_app, <- IH by (intros; apply H; [right; assumption|assumption]).
  f_equal. destruct (beqb_spec (hm_name h) s) as [E|_]; [|reflexivity]. apply H; [left; reflexivity|exact E].
Qed.
Lemma forall2_of {A C} (P : A -> C -> Prop) (g : A -> C) l : (forall a, In a l -> P a (g a)) -> Forall2 P l (map g l).
Proof. induction l as [|a l IH]; intros H; constructor; [apply H; left; reflexivity|]. apply IH. intros x I. apply H. right. exact I. Qed.
Lemma routine_keys h : In h (lv_homes db) -> NoDup (map (fun r => [rt_name (read_of r); rt_args (read_of r)]) (filter (routine_wanted d f (hm_name h)) (hm_routines h))).
Proof.
  intros Ih. pose proof (wanted_clear h) as W. pose proof not_other as No. destruct OK as (_ & _ & _ & Fh). rewrite Forall_forall in Fh. destruct (Fh h Ih) as (_ & _ & _ & Nd & _). clear Fh.
  assert (Plain : NoDup (map lr_name (filter (routine_wanted d f (hm_name h)) (hm_routines h))) -> (forall r, rt_name (read_of r) = lr_name r /\ rt_args (read_of r) = []) ->
     NoDup (map (fun r => [rt_name (read_of r); rt_args (read_of r)]) (filter (routine_wanted d f (hm_name h)) (hm_routines h)))).
  { intros N E. rewrite (map_ext _ (fun r => [lr_name r; []])) by (intros r; destruct (E r) as [-> ->]; reflexivity). apply (nodup_key lr_name (fun n => [n; []])); [congruence|exact N]. }
  destruct (dialect_eq_dec d Postgres) as [Ep|Np].
  { rewrite Ep in Nd. destruct Nd as [Nd _]. apply (nodup_filter_map _ (routine_wanted d f (hm_name h))) in Nd.
    rewrite (map_ext _ (fun r => (fun p => [fst p; snd p]) (lr_name r, lr_args r))) by (intros r; unfold read_of; rewrite Ep; reflexivity).
    apply (nodup_key (fun r => (lr_name r, lr_args r)) (fun p => [fst p; snd p])); [intros [] []; cbn; congruence|exact Nd]. }
  apply Plain; [|intros r; unfold read_of; destruct d; auto; contradiction].
  destruct (dialect_eq_dec d SQLite) as [Eq|Nq]; [rewrite Eq in Nd; rewrite Nd; constructor|].
  destruct (dialect_eq_dec d MySQL) as [Em|Nm].
  - rewrite Em in Nd.
    assert (X : forall l, (forall r, In r l -> In r (hm_routines h)) -> NoDup (map (fun r => (lr_name r, lr_kind r)) l) -> NoDup (map lr_name (filter (routine_wanted d f (hm_name h)) l))).
    { induction l as [|r l IH]; intros Sub N; [constructor|]. cbn [map] in N. inversion N as [|? ? N1 N2]; subst. specialize (IH (fun x I => Sub x (or_intror I)) N2). cbn [filter].
      destruct (routine_wanted d f (hm_name h) r) eqn:Er; [|exact IH]. cbn [map]. constructor; [|exact IH]. intros I. apply N1. apply in_map_iff in I as (x & E & I). apply filter_In in I as [I _].
      destruct (W r Ih (Sub r (or_introl eq_refl)) Er) as (_ & _ & C). destruct (C Em) as [_ C1]. rewrite <- (C1 x (Sub x (or_intror I)) E), <- E. apply (in_map (fun r => (lr_name r, lr_kind r))), I. }
    apply X; auto.
  - apply nodup_filter_map. destruct d; try contradiction; exact Nd.
Qed.
Theorem extras_ok : exists exts cat, read_extras d f db = Ok (exts, cat) /\ extras_read d f db exts cat.
Proof.
  destruct enums_ok as (Re & Ee & He). destruct domains_ok as (Rd & Ed & Hd). destruct routines_ok as (Rr & Er & Hr). pose proof extensions_ok as Ex.
  pose proof OK as (_ & _ & Nh & Fh). rewrite Forall_forall in Fh.
  unfold read_extras. rewrite Ex. cbn [bindr]. rewrite Ee. cbn [bindr].
  assert (P0 : places_ok [] (fun _ => None)) by (split; [constructor|split; [discriminate|contradiction]]).
  destruct (add_items_ok pl_enums with_enums (fun e => [en_name (fst e)]) (fun _ _ => eq_refl) (fun _ _ => eq_refl) (fun _ => eq_refl) (spread db Re) [] (fun _ => None) P0) as (p1 & m1 & E1 & P1 & N1 & G1 & O1).
  { apply spread_keys; [exact Nh|]. intros h Ih. rewrite (He h Ih), map_map. cbn [fst]. apply (nodup_key (fun e => en_name (le_enum e)) (fun n => [n])); [congruence|].
    apply nodup_filter_map. destruct (Fh h Ih) as (_ & N & _). exact N. }
  unfold kmap in E1 |- *. rewrite E1. cbn [bindr]. rewrite Ed. cbn [bindr].
  destruct (add_items_ok pl_domains with_domains (fun o => [dm_name (fst o)]) (fun _ _ => eq_refl) (fun _ _ => eq_refl) (fun _ => eq_refl) (spread db Rd) p1 m1 P1) as (p2 & m2 & E2 & P2 & N2 & G2 & O2).
  { apply spread_keys; [exact Nh|]. intros h Ih. rewrite (Hd h Ih), map_map. cbn [fst want_domain dm_name]. apply (nodup_key ld_name (fun n => [n])); [congruence|].
    apply nodup_filter_map. destruct (Fh h Ih) as (_ & _ & N & _). exact N. }
  unfold kmap in E2. rewrite E2. cbn [bindr]. rewrite Er. cbn [bindr].
  destruct (add_items_ok pl_routines with_routines (fun r => [rt_name r; rt_args r]) (fun _ _ => eq_refl) (fun _ _ => eq_refl) (fun _ => eq_refl) (spread db Rr) p2 m2 P2) as (p3 & m3 & E3 & P3 & N3 & G3 & O3).
  { apply spread_keys; [exact Nh|]. intros h Ih. rewrite (proj1 (Hr h Ih)), map_map. exact (routine_keys h Ih). }
  unfold kmap in E3. rewrite E3. cbn [bindr fst]. exists (wanted_extensions f db), p3. split; [reflexivity|].
  assert (Xe : forall s, in_schema pl_enums p3 s = rows_at (spread db Re) s).
  { intros s. rewrite (O3 _ pl_enums), (O2 _ pl_enums), G1 by reflexivity. reflexivity. }
  assert (Xd : forall s, in_schema pl_domains p3 s = rows_at (spread db Rd) s).
  { intros s. rewrite (O3 _ pl_domains), G2, (O1 _ pl_domains) by reflexivity. reflexivity. }
  assert (Xr : forall s, in_schema pl_routines p3 s = rows_at (spread db Rr) s).
  { intros s. rewrite G3, (O2 _ pl_routines), (O1 _ pl_routines) by reflexivity. reflexivity. }
  split; [reflexivity|]. split; [apply P3|]. split.
  - intros p Ip.
    assert (Own : forall C (g : place -> list C), in_schema g p3 (pl_name p) = g p).
    { intros C g. destruct P3 as (Nd & _). apply in_split in Ip as (l1 & l2 & ->). rewrite map_app in Nd. cbn [map] in Nd. apply NoDup_remove in Nd as [_ Nd]. rewrite in_app_iff in Nd.
      rewrite in_schema_app, (in_schema_none g l1) by tauto. cbn [app in_schema flat_map]. fold (in_schema g l2 (pl_name p)). rewrite beqb_refl, (in_schema_none g l2) by tauto. apply app_nil_r. }
    rewrite <- (Own _ pl_enums), <- (Own _ pl_domains), <- (Own _ pl_routines), Xe, Xd, Xr.
    assert (Some_row : forall C (L : list (bytes * C)), In (pl_name p) (map fst L) -> rows_at L (pl_name p) <> []).
    { intros C L I. apply in_map_iff in I as ([s c] & E & I). cbn in E. subst s. intros X. assert (Y : In c (rows_at L (pl_name p))); [|rewrite X in Y; exact Y].
      unfold rows_at. apply in_map_iff. exists (pl_name p, c). split; [reflexivity|]. apply filter_In. split; [exact I|apply beqb_refl]. }
    apply (in_map pl_name) in Ip. apply N3 in Ip as [Ip|Ip]; [|right; right; apply Some_row; exact Ip]. apply N2 in Ip as [Ip|Ip]; [|right; left; apply Some_row; exact Ip].
    apply N1 in Ip as [Ip|Ip]; [contradiction|left; apply Some_row; exact Ip].
  - intros s. rewrite Xe, Xd, Xr. split; [|split].
    + apply at_home. intros h Ih <-. exact (He h Ih).
    + unfold domains_of. erewrite (at_home Rd hm_domains _ want_domain s); [apply forall2_of; reflexivity|]. intros h Ih <-. exact (Hd h Ih).
    + rewrite (at_home Rr hm_routines (routine_wanted d f s) read_of s) by (intros h Ih <-; exact (proj1 (Hr h Ih))). unfold routines_of. apply forall2_of.
      intros r Ir. unfold of_home in Ir. apply in_flat_map in Ir as (h & Ih & Ir). destruct (beqb_spec (hm_name h) s) as [<-|_]; [|contradiction]. exact (proj2 (Hr h Ih) r Ir).
Qed.
End Read.
