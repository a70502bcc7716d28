(** C111: the data of a dump is every stored value of every table.
    C112: a dump is the database as it was at one moment, also while others write to it. *)
From Verif Require Import GoStr GoStrFacts ModelSq SpecSql SpecInsert SpecTokens ModelSubset SpecSubsetText ModelCatalog ModelDdl ModelDiff ModelDumpData SpecDumpData DumpDataFacts.
From Coq Require Import Lia Permutation.

(** ** C111 *)
(** One query for every table, except virtual tables of SQLite. *)
Theorem C111_tables : forall d cat, map fst (data_queries d cat) = filter (fun t => negb (dialect_eqb d SQLite && is_virtual t)) (flat_map sc_tables (ct_schemas cat)).
Proof. exact queries_tables. Qed.
Definition C111_full : Prop := forall d cat t text st c, In (t, text) (data_queries d cat) -> sound d t ->
  st (place (ct_current cat) t) = Some c -> incl (map col_name (tb_columns t)) (rows_columns c) ->
  answer d (ct_current cat) st text = Some (rows (dumped (stored (tb_columns t)) c)) /\ data_header t = stored (tb_columns t).
Theorem C111_partial : forall d cat t text st c, In (t, text) (data_queries d cat) -> sound d t -> something_stored d t ->
  st (place (ct_current cat) t) = Some c -> incl (map col_name (tb_columns t)) (rows_columns c) ->
  answer d (ct_current cat) st text = Some (rows (dumped (stored (tb_columns t)) c)) /\ data_header t = stored (tb_columns t).
Proof.
  intros d cat t text st c I S N C L. split; [|apply header_stored]. apply queries_text in I. subst text. rewrite answer_query by (apply sound_readable; assumption).
  rewrite C. cbn [andthen]. assert (forallb (fun x => bmem x (rows_columns c)) (data_columns t ++ key_of t) = true) as ->; [|reflexivity].
  apply forallb_forall. intros x Ix. apply bmem_In, L. apply in_app_iff in Ix. destruct Ix as [Ix|Ix]; [|exact (key_columns d t S x Ix)].
  rewrite columns_stored in Ix. apply stored_column in Ix. destruct Ix as (y & Iy & <-). apply in_map, Iy.
Qed.
(** The rows are asked for in the order of the primary key. *)
Theorem C111_order : forall d cat t text, In (t, text) (data_queries d cat) -> sound d t -> something_stored d t ->
  exists q, read_select d text = Some q /\ located (ct_current cat) (sl_from q) = place (ct_current cat) t /\
    forall k, In k (tb_constraints t) -> con_type k = PRIMARY_KEY -> con_ignore k = false ->
      (forall k', In k' (tb_constraints t) -> con_type k' = PRIMARY_KEY -> k' = k) -> sl_order q = con_columns k.
Proof.
  intros d cat t text I S N. apply queries_text in I. subst text. eexists. split; [apply data_query_read, sound_readable; assumption|]. split; [apply shown_place|].
  intros k Ik T G U. cbn [sl_order]. unfold key_of, data_key. destruct (find _ _) as [k'|] eqn:F.
  - apply find_some in F. destruct F as (Ik' & F). apply andb_true_iff in F. destruct F as (F & _). apply beqb_eq in F. rewrite (U k' Ik' F). reflexivity.
  - exfalso. pose proof (find_none _ _ F k Ik) as X. cbn beta in X. rewrite T, G, beqb_refl in X. discriminate X.
Qed.

(** A table all of whose columns are generated. *)
Definition plain_column (n : bytes) : column := Column [] [] n (B"INT") [] [] [] [] false false false false false [] [] false false [] false [] false.
Definition generated_column (n e : bytes) : column := Column [] [] n (B"INT") [] [] [] [] false false false false false [] [] false true e true [] false.
Definition pkey (cols : list bytes) : constraint := Constraint [] [] (B"pk") PRIMARY_KEY cols [] [] [] [] [] [] [] [] [] [] false false false false false.
Definition answers_table : table := Table (B"db") (B"answers") [] false [generated_column (B"a") (B"42")] [] [] false.
Definition answers_catalog : catalog := Catalog MySQL [8; 0] (B"db") [] [Schema (B"db") [answers_table] false].
Definition answers_state : state := fun i => if tid_eqb i (B"db", B"answers") then Some (Content [B"a"] [[Some (B"42")]]) else None.
Theorem C111_refuted : ~ C111_full.
Proof.
  intros H. destruct (H MySQL answers_catalog answers_table (data_query MySQL (B"db") answers_table) answers_state (Content [B"a"] [[Some (B"42")]])) as (X & _).
  - left. reflexivity.
  - constructor; [intros _; reflexivity|reflexivity|intros c [<-|[]]; reflexivity|intros k []].
  - reflexivity.
  - intros x I. exact I.
  - vm_compute in X. discriminate X.
Qed.

(** ** C112 *)
Definition tables_of (d : dialect) (cat : catalog) : list table := map fst (data_queries d cat).
Definition C112_full : Prop := forall archive d cat st es l,
  asked_as archive (data_queries d cat) (asked es) -> (forall t, In t (tables_of d cat) -> sound d t /\ something_stored d t) ->
  NoDup (map (place (ct_current cat)) (tables_of d cat)) -> dump d (ct_current cat) data_header st es = Some l ->
  exists st', In st' (states st es) /\ of_state (ct_current cat) (tables_of d cat) st' l.
Definition C112_references_full : Prop := forall archive d cat st es l fs,
  asked_as archive (data_queries d cat) (asked es) -> (forall t, In t (tables_of d cat) -> sound d t /\ something_stored d t) ->
  NoDup (map (place (ct_current cat)) (tables_of d cat)) -> dump d (ct_current cat) data_header st es = Some l ->
  (forall t f, In t (tables_of d cat) -> In f fs -> (place (ct_current cat) t = rf_child f -> incl (rf_columns f) (stored (tb_columns t)))
    /\ (place (ct_current cat) t = rf_parent f -> incl (rf_keys f) (stored (tb_columns t)))) ->
  (forall st', In st' (states st es) -> intact_state fs st') -> intact_dump fs l.

Section Dump.
Context (archive : bool) (d : dialect) (cat : catalog).
Notation current := (ct_current cat).
Notation tables := (tables_of d cat).
Context (st : state) (es : list event) (l : list (tid * content)).
Hypothesis As : asked_as archive (data_queries d cat) (asked es).
Hypothesis So : forall t, In t tables -> sound d t /\ something_stored d t.
Hypothesis No : NoDup (map (place current) tables).
Hypothesis Du : dump d current data_header st es = Some l.
Lemma asks_of a t text b : es = a ++ Asks (t, text) :: b -> In t tables /\ text = data_query d current t /\ readable d t.
Proof.
  intros E. assert (I : In (t, text) (data_queries d cat)) by (apply (asked_in archive _ (asked es) _ As); rewrite E, asked_app; apply in_app_iff; right; left; reflexivity).
  assert (T : In t tables) by (unfold tables_of; apply in_map_iff; exists (t, text); auto).
  split; [exact T|]. split; [exact (queries_text d cat t text I)|]. destruct (So t T). apply sound_readable; assumption.
Qed.
Lemma answer_of s t r : readable d t -> answer d current s (data_query d current t) = Some r -> exists c, s (place current t) = Some c /\ r = rows (dumped (stored (tb_columns t)) c).
Proof.
  intros R. rewrite answer_query by exact R. destruct (s (place current t)) as [c|]; cbn [andthen]; [|discriminate]. destruct (forallb _ _); [|discriminate].
  intros E. injection E as <-. exists c. auto.
Qed.
Lemma entry_of x : In x l -> exists a t b c, es = a ++ Asks (t, data_query d current t) :: b /\ In t tables /\ after st a (place current t) = Some c /\ x = (place current t, dumped (stored (tb_columns t)) c).
Proof.
  intros I. apply (dump_entry _ _ _ _ _ _ _ Du) in I. destruct I as (a & t & text & b & r & E & A & ->). destruct (asks_of a t text b E) as (T & -> & R).
  destruct (answer_of _ _ _ R A) as (c & C & ->). exists a, t, b, c. rewrite header_stored. auto.
Qed.
Lemma asked_for t : In t tables -> exists a b c, es = a ++ Asks (t, data_query d current t) :: b /\ after st a (place current t) = Some c /\ In (place current t, dumped (stored (tb_columns t)) c) l.
Proof.
  intros T. unfold tables_of in T. apply in_map_iff in T. destruct T as ([t' text] & E & I). cbn [fst] in E. subst t'.
  apply (asked_in archive _ (asked es) _ As) in I. apply in_asked in I. destruct I as (a & b & E). destruct (asks_of a t text b E) as (T & -> & R).
  assert (X : exists r, answer d current (after st a) (data_query d current t) = Some r).
  { clear - Du E. rewrite E in Du. clear E. revert st l Du. induction a as [|[st'|[t' x']] a IH]; intros st l; cbn [app dump after].
    - destruct (answer d current st (data_query d current t)) as [r|]; [eauto|discriminate].
    - apply IH.
    - destruct (answer d current st x'); cbn [andthen]; [|discriminate]. destruct (dump d current data_header st (a ++ _)) as [l'|] eqn:D; cbn [andthen]; [|discriminate].
      intros _. exact (IH st l' D). }
  destruct X as (r & A). destruct (answer_of _ _ _ R A) as (c & C & Er). exists a, b, c. split; [exact E|]. split; [exact C|].
  apply (dump_entry _ _ _ _ _ _ _ Du). exists a, t, (data_query d current t), b, r. split; [exact E|]. split; [exact A|]. rewrite header_stored, Er. reflexivity.
Qed.
(** Each file is what its table was at one of the moments. *)
Lemma moments : forall i x, In (i, x) l -> exists st' t c, In st' (states st es) /\ In t tables /\ place current t = i /\ st' i = Some c /\ x = dumped (stored (tb_columns t)) c.
Proof.
  intros i x I. destruct (entry_of _ I) as (a & t & b & c & E & T & C & X). injection X as -> ->. exists (after st a), t, c. split; [|auto].
  rewrite E. apply states_after.
Qed.
Lemma dump_count : List.length l = List.length tables.
Proof. rewrite (dump_length _ _ _ _ _ _ Du), (asked_length _ _ _ As). unfold tables_of. rewrite map_length. reflexivity. Qed.
Lemma quiet before middle behind : es = before ++ middle ++ behind -> asked before = [] -> asked behind = [] ->
  (forall st' t, In st' (states (after st before) middle) -> In t tables -> st' (place current t) = after st before (place current t)) ->
  of_state current tables (after st before) l.
Proof.
  intros E Nb Nh Q. split; [exact dump_count|]. intros t T. destruct (asked_for t T) as (a & b & c & Ea & C & I). exists c. split; [|exact I]. rewrite <- C. symmetry.
  assert (M : exists a1 b1, middle = a1 ++ Asks (t, data_query d current t) :: b1).
  { apply in_asked. assert (J : In (t, data_query d current t) (asked es)) by (rewrite Ea, asked_app; apply in_app_iff; right; left; reflexivity).
    rewrite E, !asked_app, Nb, Nh, app_nil_r in J. exact J. }
  destruct M as (a1 & b1 & Em).
  assert (N : NoDup (map (fun q => place current (fst q)) (asked es))).
  { apply (asked_places archive _ (data_queries d cat) _ As). rewrite <- (map_map fst (place current)). exact No. }
  destruct (split_asks current es (before ++ a1) t (data_query d current t) (b1 ++ behind) N) with (a' := a) (t' := t) (x' := data_query d current t) (b' := b) as (-> & _ & _);
    [rewrite E, Em, <- !app_assoc; reflexivity|exact Ea|reflexivity|].
  rewrite after_app. apply Q; [|exact T]. rewrite Em. apply states_after.
Qed.
Lemma growth fs : growing st es -> (forall st', In st' (states st es) -> intact_state fs st') ->
  (forall t f, In t tables -> In f fs -> (place current t = rf_child f -> incl (rf_columns f) (stored (tb_columns t))) /\ (place current t = rf_parent f -> incl (rf_keys f) (stored (tb_columns t)))) ->
  (forall f a tp x b tc, In f fs -> rf_child f <> rf_parent f -> es = a ++ Asks (tp, x) :: b -> place current tp = rf_parent f -> In tc tables -> place current tc = rf_child f -> In tc (map fst (asked a))) ->
  intact_dump fs l.
Proof.
  intros G H K O f If c p Ic Ip. destruct (entry_of _ Ic) as (a & tc & b & c0 & Ec & Tc & Cc & X). injection X as Xc ->. destruct (entry_of _ Ip) as (a' & tp & b' & p0 & Ep & Tp & Cp & X). injection X as Xp ->.
  apply refers_dumped; [apply (K tc f Tc If); symmetry; exact Xc|apply (K tp f Tp If); symmetry; exact Xp|].
  assert (N : NoDup (map (fun q => place current (fst q)) (asked es))).
  { apply (asked_places archive _ (data_queries d cat) _ As). rewrite <- (map_map fst (place current)). exact No. }
  assert (Ia : In (after st a) (states st es)) by (rewrite Ec; apply states_after).
  assert (D : rf_child f = rf_parent f \/ rf_child f <> rf_parent f).
  { destruct (rf_child f) as [u v], (rf_parent f) as [u' v']. destruct (beqb_spec u u') as [->|U]; [|right; congruence]. destruct (beqb_spec v v') as [->|V]; [left; reflexivity|right; congruence]. }
  destruct D as [D|D].
  - destruct (split_asks current es a tc (data_query d current tc) b N Ec a' tp (data_query d current tp) b' Ep) as (-> & -> & _); [congruence|].
    destruct (H _ Ia f If c0) as (q & Q & R); [congruence|]. replace p0 with q by congruence. exact R.
  - pose proof (O f a' tp (data_query d current tp) b' tc If D Ep (eq_sym Xp) Tc (eq_sym Xc)) as J. apply in_map_iff in J. destruct J as ([t x] & E & J). cbn [fst] in E. subst t.
    apply in_asked in J. destruct J as (a1 & b1 & E1). destruct (split_asks current es a tc (data_query d current tc) b N Ec a1 tc x (b1 ++ Asks (tp, data_query d current tp) :: b')) as (-> & _ & _);
      [rewrite Ep, E1, <- app_assoc; reflexivity|reflexivity|].
    rewrite Ep, E1, <- app_assoc in G. apply growing_app in G. destruct G as (_ & G). cbn [app] in G. change (Asks (tc, x) :: b1 ++ Asks (tp, data_query d current tp) :: b') with ((Asks (tc, x) :: b1) ++ Asks (tp, data_query d current tp) :: b') in G.
    apply growing_app in G. destruct G as (G & _). apply growing_after in G. rewrite <- after_app in G. rewrite <- E1 in G.
    destruct (H _ Ia f If c0) as (q & Q & R); [congruence|]. destruct (G _ _ Q) as (q' & Q' & Cq & Iq). rewrite Xp, Cp in Q'. injection Q' as <-.
    exact (refers_more f c0 q p0 Cq Iq R).
Qed.
End Dump.

(** Each file is what its table was at one of the moments. *)
Theorem C112_moments_partial : forall archive d cat st es l, asked_as archive (data_queries d cat) (asked es) -> (forall t, In t (tables_of d cat) -> sound d t /\ something_stored d t) ->
  dump d (ct_current cat) data_header st es = Some l ->
  List.length l = List.length (tables_of d cat) /\
  forall i x, In (i, x) l -> exists st' t c, In st' (states st es) /\ In t (tables_of d cat) /\ place (ct_current cat) t = i /\ st' i = Some c /\ x = dumped (stored (tb_columns t)) c.
Proof. intros archive d cat st es l A S D. split; [exact (dump_count archive d cat st es l A D)|exact (moments archive d cat st es l A S D)]. Qed.
(** If the tables are not changed from the first query to the last, the dump is the database at that time, and references are intact. *)
Theorem C112_quiet_partial : forall archive d cat st before middle behind l fs,
  asked_as archive (data_queries d cat) (asked (before ++ middle ++ behind)) -> (forall t, In t (tables_of d cat) -> sound d t /\ something_stored d t) ->
  NoDup (map (place (ct_current cat)) (tables_of d cat)) -> dump d (ct_current cat) data_header st (before ++ middle ++ behind) = Some l ->
  asked before = [] -> asked behind = [] ->
  (forall st' t, In st' (states (after st before) middle) -> In t (tables_of d cat) -> st' (place (ct_current cat) t) = after st before (place (ct_current cat) t)) ->
  In (after st before) (states st (before ++ middle ++ behind)) /\ of_state (ct_current cat) (tables_of d cat) (after st before) l /\
  ((forall t f, In t (tables_of d cat) -> In f fs -> (place (ct_current cat) t = rf_child f -> incl (rf_columns f) (stored (tb_columns t)))
     /\ (place (ct_current cat) t = rf_parent f -> incl (rf_keys f) (stored (tb_columns t)))) ->
   intact_state fs (after st before) -> intact_dump fs l).
Proof.
  intros archive d cat st before middle behind l fs A S N D Nb Nh Q. split; [apply states_after|]. split; [exact (quiet archive d cat st _ l A S N D before middle behind eq_refl Nb Nh Q)|].
  intros K H f If c p Ic Ip. set (es := before ++ middle ++ behind) in *.
  assert (V : forall i x, In (i, x) l -> exists t c0, In t (tables_of d cat) /\ place (ct_current cat) t = i /\ after st before i = Some c0 /\ x = dumped (stored (tb_columns t)) c0).
  { intros i x I. destruct (entry_of archive d cat st es l A S D (i, x) I) as (a & t & b & c0 & E & T & C & X). injection X as -> ->. exists t, c0. split; [exact T|]. split; [reflexivity|]. split; [|reflexivity].
    destruct (quiet archive d cat st es l A S N D before middle behind eq_refl Nb Nh Q) as (_ & Z).
    assert (M : exists a1 b1, middle = a1 ++ Asks (t, data_query d (ct_current cat) t) :: b1).
    { apply in_asked. assert (J : In (t, data_query d (ct_current cat) t) (asked es)) by (rewrite E, asked_app; apply in_app_iff; right; left; reflexivity).
      unfold es in J. rewrite !asked_app, Nb, Nh, app_nil_r in J. exact J. }
    destruct M as (a1 & b1 & Em). assert (Nd : NoDup (map (fun q => place (ct_current cat) (fst q)) (asked es))).
    { apply (asked_places archive _ (data_queries d cat) _ A). rewrite <- (map_map fst (place (ct_current cat))). exact N. }
    destruct (split_asks (ct_current cat) es (before ++ a1) t (data_query d (ct_current cat) t) (b1 ++ behind) Nd) with (a' := a) (t' := t) (x' := data_query d (ct_current cat) t) (b' := b) as (-> & _ & _);
      [unfold es; rewrite Em, <- !app_assoc; reflexivity|exact E|reflexivity|].
    rewrite <- C, after_app. symmetry. apply Q; [|exact T]. rewrite Em. apply states_after. }
  destruct (V _ _ Ic) as (tc & c0 & Tc & Pc & Cc & ->). destruct (V _ _ Ip) as (tp & p0 & Tp & Pp & Cp & ->).
  apply refers_dumped; [apply (K tc f Tc If), Pc|apply (K tp f Tp If), Pp|]. destruct (H f If c0 Cc) as (q & Q' & R). replace p0 with q by congruence. exact R.
Qed.
(** If rows are only added, and each table is asked for before the tables that it refers to, references are intact. *)
Theorem C112_growing_partial : forall archive d cat st es l fs,
  asked_as archive (data_queries d cat) (asked es) -> (forall t, In t (tables_of d cat) -> sound d t /\ something_stored d t) ->
  NoDup (map (place (ct_current cat)) (tables_of d cat)) -> dump d (ct_current cat) data_header st es = Some l ->
  (forall t f, In t (tables_of d cat) -> In f fs -> (place (ct_current cat) t = rf_child f -> incl (rf_columns f) (stored (tb_columns t)))
    /\ (place (ct_current cat) t = rf_parent f -> incl (rf_keys f) (stored (tb_columns t)))) ->
  (forall st', In st' (states st es) -> intact_state fs st') -> growing st es ->
  (forall f a tp x b tc, In f fs -> rf_child f <> rf_parent f -> es = a ++ Asks (tp, x) :: b -> place (ct_current cat) tp = rf_parent f ->
     In tc (tables_of d cat) -> place (ct_current cat) tc = rf_child f -> In tc (map fst (asked a))) ->
  intact_dump fs l.
Proof. intros archive d cat st es l fs A S N D K H G O. exact (growth archive d cat st es l A S N D fs G H K O). Qed.

(** Someone adds a customer and their first order between the two queries. *)
Definition shop_customers : table := Table (B"public") (B"customers") [] false [plain_column (B"id"); generated_column (B"twice") (B"id * 2")] [pkey [B"id"]] [] false.
Definition shop_orders : table := Table (B"public") (B"orders") [] false [plain_column (B"id"); plain_column (B"customer_id")] [pkey [B"id"]] [] false.
Definition shop_catalog : catalog := Catalog Postgres [14] (B"public") [] [Schema (B"public") [shop_customers; shop_orders] false].
Definition shop_fk : reference := Reference (B"public", B"orders") [B"customer_id"] (B"public", B"customers") [B"id"].
Definition shop_state (customers orders : list (list cell)) : state := fun i =>
  if tid_eqb i (B"public", B"customers") then Some (Content [B"id"; B"twice"] customers)
  else if tid_eqb i (B"public", B"orders") then Some (Content [B"id"; B"customer_id"] orders) else None.
Definition one : list cell := [Some (B"1"); Some (B"2")].
Definition shop_early : state := shop_state [] [].
Definition shop_late : state := shop_state [one] [[Some (B"7"); Some (B"1")]].
Definition ask (t : table) : event := Asks (t, data_query Postgres (B"public") t).
Definition shop_events : list event := [ask shop_customers; Commits shop_late; ask shop_orders].
Definition shop_dump : list (tid * content) :=
  [((B"public", B"customers"), Content [B"id"] []); ((B"public", B"orders"), Content [B"id"; B"customer_id"] [[Some (B"7"); Some (B"1")]])].
Lemma shop_sound : forall t, In t (tables_of Postgres shop_catalog) -> sound Postgres t /\ something_stored Postgres t.
Proof.
  intros t [<-|[<-|[]]]; (split; [|right; reflexivity]); constructor; try (intros _; reflexivity); try reflexivity.
  - intros c [<-|[<-|[]]]; reflexivity.
  - intros k [<-|[]] _. split; [discriminate|]. intros x [<-|[]]. left. reflexivity.
  - intros c [<-|[<-|[]]]; reflexivity.
  - intros k [<-|[]] _. split; [discriminate|]. intros x [<-|[]]. left. reflexivity.
Qed.
Lemma shop_places : NoDup (map (place (B"public")) (tables_of Postgres shop_catalog)).
Proof. constructor; [intros [E|[]]; discriminate E|]. constructor; [intros []|constructor]. Qed.
Lemma shop_asked archive : asked_as archive (data_queries Postgres shop_catalog) (asked shop_events).
Proof. destruct archive; [reflexivity|apply Permutation_refl]. Qed.
Lemma shop_dumped : dump Postgres (B"public") data_header shop_early shop_events = Some shop_dump.
Proof. vm_compute. reflexivity. Qed.
Lemma shop_columns : forall t f, In t (tables_of Postgres shop_catalog) -> In f [shop_fk] -> (place (B"public") t = rf_child f -> incl (rf_columns f) (stored (tb_columns t)))
    /\ (place (B"public") t = rf_parent f -> incl (rf_keys f) (stored (tb_columns t))).
Proof. intros t f [<-|[<-|[]]] [<-|[]]; split; intros E; try discriminate E; intros x [<-|[]]; cbn; auto. Qed.
Lemma shop_intact : forall st, In st (states shop_early shop_events) -> intact_state [shop_fk] st.
Proof.
  intros st [<-|[<-|[]]] f [<-|[]] c E; cbn in E; injection E as <-; eexists; (split; [reflexivity|]); intros r I _; cbn in I; [destruct I|].
  destruct I as [<-|[]]. exists one. split; [left; reflexivity|reflexivity].
Qed.
Theorem C112_refuted : ~ C112_full.
Proof.
  intros H. destruct (H true Postgres shop_catalog shop_early shop_events shop_dump (shop_asked true) shop_sound shop_places shop_dumped) as (st & I & _ & X).
  destruct I as [<-|[<-|[]]].
  - destruct (X shop_orders) as (c & C & [E|[E|[]]]); [right; left; reflexivity| |]; vm_compute in C; injection C as <-; vm_compute in E; discriminate E.
  - destruct (X shop_customers) as (c & C & [E|[E|[]]]); [left; reflexivity| |]; vm_compute in C; injection C as <-; vm_compute in E; discriminate E.
Qed.
Theorem C112_references_refuted : ~ C112_references_full.
Proof.
  intros H. pose proof (H true Postgres shop_catalog shop_early shop_events shop_dump [shop_fk] (shop_asked true) shop_sound shop_places shop_dumped shop_columns shop_intact) as X.
  destruct (X shop_fk) with (c := Content [B"id"; B"customer_id"] [[Some (B"7"); Some (B"1")]]) (p := Content [B"id"] []) (r := [Some (B"7"); Some (B"1")]) as (p & [] & _).
  - left. reflexivity.
  - right. left. reflexivity.
  - left. reflexivity.
  - left. reflexivity.
  - intros c [<-|[]]. vm_compute. discriminate.
Qed.
(** The same for a directory, whatever the order is in which the queries were started. *)
Theorem C112_directory_refuted : exists l, dump Postgres (B"public") data_header shop_early shop_events = Some l /\ asked_as false (data_queries Postgres shop_catalog) (asked shop_events)
  /\ ~ (exists st, In st (states shop_early shop_events) /\ of_state (B"public") (tables_of Postgres shop_catalog) st l).
Proof.
  exists shop_dump. split; [exact shop_dumped|]. split; [exact (shop_asked false)|]. intros (st & I & _ & X).
  destruct I as [<-|[<-|[]]].
  - destruct (X shop_orders) as (c & C & [E|[E|[]]]); [right; left; reflexivity| |]; vm_compute in C; injection C as <-; vm_compute in E; discriminate E.
  - destruct (X shop_customers) as (c & C & [E|[E|[]]]); [left; reflexivity| |]; vm_compute in C; injection C as <-; vm_compute in E; discriminate E.
Qed.

(** ** Cases *)
Example C111_case : In (shop_customers, B"SELECT id FROM customers ORDER BY id") (data_queries Postgres shop_catalog)
  /\ answer Postgres (B"public") shop_late (B"SELECT id FROM customers ORDER BY id") = Some [[Some (B"1")]].
Proof. split; [left; vm_compute; reflexivity|vm_compute; reflexivity]. Qed.
Example C111_order_case : exists q, read_select Postgres (data_query Postgres (B"public") shop_orders) = Some q /\ sl_order q = [B"id"].
Proof. eexists. split; [vm_compute; reflexivity|reflexivity]. Qed.
(** In a directory the orders may be asked for first. *)
Definition lucky_events : list event := [ask shop_orders; Commits shop_late; ask shop_customers].
Example C112_case : asked_as false (data_queries Postgres shop_catalog) (asked lucky_events)
  /\ growing shop_early lucky_events
  /\ (forall f a tp x b tc, In f [shop_fk] -> rf_child f <> rf_parent f -> lucky_events = a ++ Asks (tp, x) :: b -> place (B"public") tp = rf_parent f ->
     In tc (tables_of Postgres shop_catalog) -> place (B"public") tc = rf_child f -> In tc (map fst (asked a)))
  /\ dump Postgres (B"public") data_header shop_early lucky_events
     = Some [((B"public", B"orders"), Content [B"id"; B"customer_id"] []); ((B"public", B"customers"), Content [B"id"] [[Some (B"1")]])].
Proof.
  split; [apply perm_swap|]. split; [|split; [|vm_compute; reflexivity]].
  - split; [|exact Logic.I]. intros i c E. unfold shop_early, shop_state in E. unfold shop_late, shop_state.
    destruct (tid_eqb i (B"public", B"customers")); [injection E as <-; eexists; split; [reflexivity|]; split; [reflexivity|intros x []]|].
    destruct (tid_eqb i (B"public", B"orders")); [injection E as <-; eexists; split; [reflexivity|]; split; [reflexivity|intros x []]|discriminate E].
  - intros f a tp x b tc [<-|[]] _ E P [<-|[<-|[]]] C; try discriminate C.
    destruct a as [|e a]; [injection E as <- <- <-; discriminate P|]. injection E as <- E. left. reflexivity.
Qed.
Example C112_quiet_case : exists l, dump Postgres (B"public") data_header shop_early ([Commits shop_late] ++ [ask shop_customers; ask shop_orders] ++ [Commits shop_early]) = Some l
  /\ of_state (B"public") (tables_of Postgres shop_catalog) shop_late l.
Proof.
  eexists. split; [vm_compute; reflexivity|]. split; [reflexivity|]. intros t [<-|[<-|[]]]; eexists; (split; [reflexivity|]); vm_compute; auto.
Qed.
Print Assumptions C111_tables.
Print Assumptions C111_partial.
Print Assumptions C111_order.
Print Assumptions C111_refuted.
Print Assumptions C112_refuted.
Print Assumptions C112_references_refuted.
Print Assumptions C112_directory_refuted.
Print Assumptions C112_moments_partial.
Print Assumptions C112_quiet_partial.
Print Assumptions C112_growing_partial.
