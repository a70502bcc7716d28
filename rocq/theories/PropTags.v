(** C76, C77, C78: reading table structs. *)
From Coq Require Import Lia.
From Verif Require Import GoStr GoStrFacts ModelCatalog ModelCache ModelDdl ModelModifier ModifierFacts ModelDiff ModelDiffSql DiffLookup
  ModelGoTag ModelStructs ModelParser SpecGo SpecTags ParserFacts ParserTables ParserSafe DiffWitness.

(** ** The hypotheses of the statements in the terms of the proofs *)
Lemma struct_table_stands : forall cur s first fields, ts_fields s = first :: fields ->
  stands_for cur s (fst (struct_table cur s first)) (snd (struct_table cur s first)).
Proof.
  intros cur s first fields E. unfold struct_table.
  set (n := if is_empty (f_tag first) then _ else _).
  assert (N : named s n).
  { exists first, fields. split; [exact E|]. unfold n. destruct (f_tag first) eqn:Et; cbn; [right|left]; split; auto; discriminate. }
  clearbody n. destruct (cut_byte "."%char n) as [[a b]|] eqn:C.
  - destruct (cut_byte_Some _ _ _ _ C) as (En & Hn). destruct a as [|c a]; cbn.
    + apply stands_blank. rewrite En in N. exact N.
    + apply stands_qualified; [rewrite En in N; exact N|discriminate|exact Hn].
  - apply cut_byte_None in C. cbn. apply stands_plain; assumption.
Qed.
Lemma one_each_nodup : forall cur l, one_struct_each cur l -> NoDup (tables_of cur l).
Proof.
  intros cur l. induction l as [|s l IH]; intro H; [constructor|].
  assert (H' : one_struct_each cur l).
  { intros i j s1 s2 sc t H1 H2 S1 S2. assert (Q : S i = S j) by (eapply (H (S i) (S j)); eassumption). lia. }
  unfold tables_of. cbn [flat_map]. fold (tables_of cur l). unfold table_of. destruct (ts_fields s) as [|first fields] eqn:E; [apply IH; exact H'|].
  cbn. constructor; [|apply IH; exact H'].
  intro Hin. unfold tables_of in Hin. apply in_flat_map in Hin as (s' & Hs' & Hin). unfold table_of in Hin.
  destruct (ts_fields s') as [|first' fields'] eqn:E'; [destruct Hin|]. destruct Hin as [Hin|[]].
  apply In_nth_error in Hs' as (j & Hj).
  pose proof (struct_table_stands cur s first fields E) as S1. pose proof (struct_table_stands cur s' first' fields' E') as S2.
  rewrite Hin in S2. assert (Q : 0 = S j) by (eapply (H 0 (S j)); [reflexivity|exact Hj|exact S1|exact S2]). discriminate.
Qed.

Lemma stands_unique : forall cur s sc t, stands_for cur s sc t -> table_of cur s = [(sc, t)].
Proof.
  assert (Q : forall cur s n, named s n -> table_of cur s =
    [let '(sc, t) := match cut_byte "."%char n with Some (a, b) => (a, b) | None => ([], n) end in (if is_empty sc then cur else sc, t)]).
  { intros cur s n (first & fields & E & [(T & ->)|(T & ->)]); unfold table_of; rewrite E; unfold struct_table.
    - destruct (f_tag first); [contradiction|reflexivity].
    - rewrite T. reflexivity. }
  intros cur s sc t [n N H|n N|a n N H H'].
  - rewrite (Q _ _ _ N). apply cut_byte_None in H. rewrite H. reflexivity.
  - rewrite (Q _ _ _ N). reflexivity.
  - rewrite (Q _ _ _ N), (cut_byte_app _ _ _ H'). destruct a; [contradiction|reflexivity].
Qed.
Lemma nodup_one_each : forall cur l, NoDup (tables_of cur l) -> one_struct_each cur l.
Proof.
  intros cur l. induction l as [|s l IH]; intros H i j s1 s2 sc t H1 H2 S1 S2; [destruct i; discriminate|].
  unfold tables_of in H. cbn [flat_map] in H. fold (tables_of cur l) in H.
  assert (M : forall k x, nth_error l k = Some x -> stands_for cur x sc t -> In (sc, t) (tables_of cur l)).
  { intros k x Hk Sx. apply in_flat_map. exists x. split; [eapply nth_error_In; exact Hk|]. rewrite (stands_unique _ _ _ _ Sx). left. reflexivity. }
  destruct i as [|i], j as [|j]; cbn in H1, H2; [reflexivity| | |].
  - injection H1 as ->. rewrite (stands_unique _ _ _ _ S1) in H. inversion H; subst. exfalso. eauto.
  - injection H2 as ->. rewrite (stands_unique _ _ _ _ S2) in H. inversion H; subst. exfalso. eauto.
  - f_equal. refine (IH _ i j s1 s2 sc t H1 H2 S1 S2).
    destruct (table_of cur s) as [|a [|b r]] eqn:Et; [exact H|inversion H; assumption|].
    unfold table_of in Et. destruct (ts_fields s); discriminate.
Qed.

Lemma excluded_iff : forall d m, excluded d m = true <-> for_others d m.
Proof.
  intros d m. unfold excluded, excludes_dialect, for_others. destruct (m_dialects m) as [|a l].
  - split; [discriminate|intros ([] & _); reflexivity].
  - rewrite negb_true_iff. destruct (bmem (dialect_name d) (a :: l)) eqn:E.
    + apply bmem_In in E. split; [discriminate|tauto].
    + split; [intros _|reflexivity]. split; [discriminate|]. intro X. apply bmem_In in X. congruence.
Qed.
Lemma safe_cites : forall d m, names_reference d m -> cites d m.
Proof.
  intros d m H N m' Hm Hs. unfold parsed_value in Hm. destruct (parse_raw_value m) as [r|] eqn:E; [|discriminate]. subst r.
  destruct (H N m' E Hs) as (r & Hr & Nr & D). exists r. split; [exact Hr|]. split; [exact Nr|].
  destruct (excluded d r) eqn:X; [|reflexivity]. apply excluded_iff in X as (X1 & X2). tauto.
Qed.

(** ** C76: reading table structs does not crash *)
Definition modifiers_of (l : list table_struct) (m : modifier) : Prop :=
  exists s f, In s l /\ In f (ts_fields s) /\ In m (f_mods f).

Lemma visits_total : forall l, exists r, visit_structs l = Ok r.
Proof.
  assert (F : forall f, exists r, visit_field f = Ok r).
  { intro f. unfold visit_field. destruct (read_tag (gf_tag f)) as [tag ms] eqn:E.
    destruct ms as [ms| |]; eauto. exfalso. unfold read_tag in E. destruct (gf_tag f) as [lit|]; [|discriminate].
    destruct (go_unquote lit) as [s|]; [|discriminate]. apply (f_equal snd) in E. cbn [snd] in E.
    destruct (parsing_total (tag_get (B"ddl") s)) as (r & R & N). rewrite R in E. congruence. }
  assert (Fs : forall l, exists r, visit_fields l = Ok r).
  { induction l as [|f l (r & IH)]; [eexists; reflexivity|]. cbn [visit_fields]. destruct (F f) as ([o cs] & ->). cbn [bindr].
    rewrite IH. destruct r as [fs cs']. cbn [bindr]. eauto. }
  induction l as [|s l (r & IH)]; [eexists; reflexivity|]. cbn [visit_structs].
  assert (V : exists r, visit_struct s = Ok r).
  { unfold visit_struct. destruct (gs_fields s) as [|f fs]; [eauto|]. destruct (F f) as ([o cs] & ->). cbn [bindr].
    destruct (Fs fs) as ([fields cs'] & ->). destruct o as [first|]; [|cbn [bindr]; eauto]. destruct (_ || _); cbn [bindr]; eauto. }
  destruct V as ([ts cs] & ->). cbn [bindr]. rewrite IH. destruct r as [ts' cs']. cbn [bindr]. eauto.
Qed.

(** The whole way from the declarations in Go files to the catalog. *)
Definition read_declarations (flt : bytes -> bool) (d : dialect) (cur : bytes) (l : list go_struct) : result (list schema * list complaint) :=
  bindr (visit_structs l) (fun '(ts, cs) =>
  bindr (parse_structs flt d cur [] ts) (fun '(schemas, cs') => Ok (schemas, cs ++ cs'))).

Theorem C76_partial : forall flt d cur l,
  exists ts cs, visit_structs l = Ok (ts, cs) /\
    (one_struct_each cur ts ->
     (forall m, modifiers_of ts m -> type_readable m /\ names_reference d m) ->
     exists r, read_declarations flt d cur l = Ok r).
Proof.
  intros flt d cur l. destruct (visits_total l) as ([ts cs] & E). exists ts, cs. split; [exact E|]. intros O F.
  unfold read_declarations. rewrite E. cbn [bindr].
  destruct (reading_safe flt d cur ts (one_each_nodup _ _ O)) as ([schemas cs'] & R).
  - apply Forall_forall. intros s Hs. apply Forall_forall. intros f Hf. split.
    + intro X. apply Exists_exists in X as (m & Hm & Nm & Q1 & Q2).
      destruct (F m (ex_intro _ s (ex_intro _ f (conj Hs (conj Hf Hm))))) as (T & _). exact (Q1 (T Nm Q2)).
    + apply Forall_forall. intros m Hm. apply safe_cites. apply (F m (ex_intro _ s (ex_intro _ f (conj Hs (conj Hf Hm))))).
  - rewrite R. cbn [bindr]. eauto.
Qed.
Print Assumptions C76_partial.

(** Three files that crash the program: a foreign key without a reference, a type with a
    closing bracket only, and two structs for one table of which one is meant for MySQL. *)
Definition no_reference : bytes := B"type COPY struct {
  sq.TableStruct
  FILM sq.NumberField `ddl:""foreignkey={film onupdate=cascade}""`
}".
Definition no_opening : bytes := B"type FILM struct {
  sq.TableStruct
  PRICE sq.NumberField `ddl:""type=5,2)""`
}".
Definition twice : bytes := B"type FILM struct {
  sq.TableStruct `ddl:""dialect=mysql""`
  ID sq.NumberField
}
type FILM2 struct {
  sq.TableStruct `sq:""film"" ddl:""dialect=postgres""`
  ID sq.NumberField
}".
Definition reading (d : dialect) (s : bytes) : result (list schema * list complaint) :=
  match go_declarations s with Some l => read_declarations no_float d [] l | None => Err end.

Theorem C76_refuted :
  reading Postgres no_reference = Panic /\ reading MySQL no_opening = Panic /\ reading Postgres twice = Panic.
Proof. vm_compute. auto. Qed.
Print Assumptions C76_refuted.

(** ** C77: modifiers for other databases *)
Lemma thinned_step : forall flt d n i ms ms' s, thinned d ms ms' ->
  foldr (column_modifier flt d n i) s ms = foldr (column_modifier flt d n i) s ms'.
Proof.
  intros flt d n i ms ms' s T. revert s. induction T as [|m l l' T IH|m l l' O T IH]; intro s; [reflexivity| |].
  - cbn [foldr]. destruct (column_modifier flt d n i s m); cbn [bindr]; auto.
  - cbn [foldr]. destruct s as [p ds]. unfold column_modifier at 1.
    destruct (m_dialects m) as [|a ms] eqn:E; [destruct O as [O _]; congruence|]. cbn [none]. apply excluded_iff in O. rewrite O. cbn [bindr]. apply IH.
Qed.
Lemma table_field_iff : forall f, (is_empty (f_name f) && beqb (f_type f) (B"sq.TableStruct"))
     || (beqb (f_name f) (B"_") && beqb (f_type f) (B"struct{}")) = true -> table_field f.
Proof.
  intros f H. apply orb_true_iff in H as [H|H]; apply andb_true_iff in H as (H1 & H2); apply beqb_eq in H2.
  - left. split; [destruct (f_name f); [reflexivity|discriminate]|exact H2].
  - right. apply beqb_eq in H1. auto.
Qed.
Lemma thinned_parse_field : forall flt d p f f', thinned_field d f f' -> (table_field f -> f_mods f' = f_mods f) ->
  parse_field flt d p f = parse_field flt d p f'.
Proof.
  intros flt d p f f' (E1 & E2 & E3 & T) M. unfold parse_field. rewrite E1, E2, E3.
  destruct (_ || _) eqn:X; [rewrite (M (table_field_iff f X)); reflexivity|].
  cbv zeta. set (n := if is_empty (f_tag f) then _ else _). destruct (field_type d (f_type f)) as [[ty len]|]; [|reflexivity].
  destruct (if is_empty len then _ else _) as [p'| |]; cbn [bindr]; try reflexivity. unfold parse_column.
  destruct (get_or_create_column _ _ _ _) as [[[t c] i]| |]; cbn [bindr]; try reflexivity.
  erewrite thinned_step; [reflexivity|exact T].
Qed.
Lemma thinned_parse_struct : forall flt d cur g s s', thinned_columns d s s' -> parse_struct flt d cur g s = parse_struct flt d cur g s'.
Proof.
  intros flt d cur g s s' (N & F). unfold parse_struct, struct_table. rewrite N. destruct F as [|f f' l l' (T & M) F]; [reflexivity|].
  rewrite (proj1 (proj2 (proj2 T))). set (st := match cut_byte _ _ with Some _ => _ | None => _ end). destruct st as [sc tn].
  destruct (get_or_create_schema _ _) as [[st i]| |]; cbn [bindr]; try reflexivity.
  destruct (nth_error _ i) as [sch|]; [|reflexivity]. destruct (get_or_create_table _ _ _) as [[[sch' c] j]| |]; cbn [bindr]; try reflexivity.
  destruct (nth_error _ j) as [t|]; [|reflexivity]. set (p := Parser c t _ _ _). unfold fill_table. cbn [foldr].
  rewrite (thinned_parse_field flt d p f f' T M).
  destruct (parse_field flt d p f') as [p1| |]; cbn [bindr]; try reflexivity.
  assert (Q : forall p, foldr (parse_field flt d) p l = foldr (parse_field flt d) p l').
  { clear - F. induction F as [|x x' l l' (T & M) F IH]; intro p; [reflexivity|]. cbn [foldr]. rewrite (thinned_parse_field flt d p x x' T M).
    destruct (parse_field flt d p x'); cbn [bindr]; auto. }
  rewrite Q. reflexivity.
Qed.

Theorem C77_partial : forall flt d cur schemas l l', Forall2 (thinned_columns d) l l' ->
  parse_structs flt d cur schemas l' = parse_structs flt d cur schemas l.
Proof.
  intros flt d cur schemas l l' F. unfold parse_structs. generalize (Parsing (new_state schemas) [] [] []) as g.
  assert (Q : forall g, foldr (parse_struct flt d cur) g l' = foldr (parse_struct flt d cur) g l); [|intro g; rewrite Q; reflexivity].
  induction F as [|s s' l l' T F IH]; intro g; [reflexivity|]. cbn [foldr]. rewrite (thinned_parse_struct flt d cur g s s' T).
  destruct (parse_struct flt d cur g s'); cbn [bindr]; auto.
Qed.
Print Assumptions C77_partial.

(** Modifiers of a table: a unique key that is declared for all databases and once more for
    MySQL is lost on Postgres.  Without the second declaration it is there. *)
Definition live_keys (schemas : list schema) : list (bytes * bytes) :=
  flat_map (fun sc => flat_map (fun t => map (fun x => (tb_name t, con_name x))
    (filter (fun x => negb (con_ignore x)) (tb_constraints t))) (sc_tables sc)) schemas.
Definition with_mysql : bytes := B"type FILM struct {
  sq.TableStruct `ddl:""unique=title,year mysql:unique=title,year""`
  TITLE sq.StringField
  YEAR sq.NumberField
}".
Definition without_mysql : bytes := B"type FILM struct {
  sq.TableStruct `ddl:""unique=title,year""`
  TITLE sq.StringField
  YEAR sq.NumberField
}".
Definition structs_in (s : bytes) : list table_struct :=
  match go_declarations s with Some l => match visit_structs l with Ok (ts, _) => ts | _ => [] end | None => [] end.
Theorem C77_refuted : exists l l' schemas schemas',
  Forall2 (thinned_struct Postgres) l l' /\ parse_structs no_float Postgres [] [] l = Ok (schemas, [])
  /\ parse_structs no_float Postgres [] [] l' = Ok (schemas', [])
  /\ live_keys schemas = [] /\ live_keys schemas' = [(B"film", B"film_title_year_key")].
Proof.
  exists (structs_in with_mysql), (structs_in without_mysql).
  destruct (parse_structs no_float Postgres [] [] (structs_in with_mysql)) as [[a cs]| |] eqn:E1; [|vm_compute in E1; discriminate..].
  destruct (parse_structs no_float Postgres [] [] (structs_in without_mysql)) as [[b cs']| |] eqn:E2; [|vm_compute in E2; discriminate..].
  exists a, b. split.
  - set (l := structs_in with_mysql). set (l' := structs_in without_mysql). vm_compute in l. vm_compute in l'. subst l l'.
    assert (Keep : forall ms, thinned Postgres ms ms) by (induction ms; constructor; assumption).
    constructor; [|constructor]. split; [reflexivity|].
    constructor; [|constructor; [|constructor; [|constructor]]]; (split; [reflexivity|]; split; [reflexivity|]; split; [reflexivity|]); cbn [f_mods]; [|apply Keep..].
    apply thinned_keep. apply thinned_drop; [|apply Keep]. split; [discriminate|]. cbn [m_dialects]. intros [X|[]]. vm_compute in X. discriminate.
  - vm_compute in E1, E2. injection E1 as <- <-. injection E2 as <- <-. vm_compute. auto.
Qed.
Print Assumptions C77_refuted.

(** A column for MySQL and Postgres, read with and without what is for MySQL. *)
Definition mixed : bytes := B"type FILM struct {
  sq.TableStruct
  FILM_ID sq.NumberField `ddl:""notnull primarykey mysql:auto_increment postgres:identity mysql:type=BIGINT""`
}".
Definition pure : bytes := B"type FILM struct {
  sq.TableStruct
  FILM_ID sq.NumberField `ddl:""notnull primarykey postgres:identity""`
}".
Example C77_case : Forall2 (thinned_columns Postgres) (structs_in mixed) (structs_in pure)
  /\ exists schemas, parse_structs no_float Postgres [] [] (structs_in mixed) = Ok (schemas, [])
     /\ flat_map (fun sc => flat_map (fun t => map (fun c => (col_name c, col_type c, col_identity c)) (tb_columns t)) (sc_tables sc)) schemas
        = [(B"film_id", B"INT", DEFAULT_IDENTITY)].
Proof.
  split.
  - set (l := structs_in mixed). set (l' := structs_in pure). vm_compute in l. vm_compute in l'. subst l l'.
    constructor; [|constructor]. split; [reflexivity|].
    assert (Keep : forall ms, thinned Postgres ms ms) by (induction ms; constructor; assumption).
    assert (Not : forall ds x y z v, for_others Postgres (Mod (B"mysql" :: ds) x y z v) <-> ~ In (B"postgres") ds).
    { intros. split; [intros (_ & X) Y; apply X; right; exact Y|]. intro X. split; [discriminate|]. intros [Y|Y]; [discriminate|contradiction]. }
    constructor; [|constructor; [|constructor]]; (split; [split; [reflexivity|]; split; [reflexivity|]; split; [reflexivity|]|]); cbn [f_mods]; try reflexivity.
    + apply Keep.
    + apply thinned_keep, thinned_keep, thinned_drop; [apply Not; intros []|]. apply thinned_keep, thinned_drop; [apply Not; intros []|constructor].
    + intros [(X & _)|(X & _)]; vm_compute in X; discriminate.
  - destruct (parse_structs no_float Postgres [] [] (structs_in mixed)) as [[a cs]| |] eqn:E1; [|vm_compute in E1; discriminate..].
    exists a. vm_compute in E1. injection E1 as <- <-. vm_compute. auto.
Qed.

(** ** C78: what keys refer to exists if nothing is reported *)
Theorem C78_partial : forall flt d cur l schemas,
  one_struct_each cur l -> parse_structs flt d cur [] l = Ok (schemas, []) ->
  forall sc t, In sc schemas -> In t (sc_tables sc) -> parts_exist t /\ references_exist cur schemas t.
Proof.
  intros flt d cur l schemas O H sc t Hsc Ht.
  assert (Ha : In t (all schemas)) by (apply in_flat_map; eauto).
  destruct (accepted_checked flt d cur l schemas (one_each_nodup _ _ O) H t Ha) as ((C1 & C2) & R). split; [split|].
  - intros x Hx Ix n Hn. specialize (C1 x Hx Ix). rewrite Forall_forall in C1. exact (C1 n Hn).
  - intros x Hx Ix n Hn. specialize (C2 x Hx Ix). rewrite Forall_forall in C2. exact (C2 n Hn).
  - intros x Hx Ix Tx. destruct (R x Hx Ix Tx) as (sc' & r & H1 & H2 & H3 & H4 & H5 & H6).
    exists (sc_name sc'), r. split; [|split; [exists sc'; auto|split; [exact H5|]]].
    + rewrite H2. destruct (con_refschema x); cbn; [left|right]; split; auto; discriminate.
    + rewrite Forall_forall in H6. exact H6.
Qed.
Print Assumptions C78_partial.

(** A foreign key with two columns that refers to one is accepted. *)
Definition two_to_one : bytes := B"type FILM struct {
  sq.TableStruct `ddl:""foreignkey={title,year references=movie.id}""`
  TITLE sq.StringField
  YEAR sq.NumberField
}
type MOVIE struct {
  sq.TableStruct
  ID sq.StringField `ddl:""primarykey""`
}".
Theorem C78_refuted : exists schemas sc t, parse_structs no_float Postgres [] [] (structs_in two_to_one) = Ok (schemas, [])
  /\ one_struct_each [] (structs_in two_to_one) /\ In sc schemas /\ In t (sc_tables sc) /\ ~ references_match t.
Proof.
  assert (O : one_struct_each [] (structs_in two_to_one)).
  { apply nodup_one_each. assert (E : tables_of [] (structs_in two_to_one) = [([], B"film"); ([], B"movie")]) by (vm_compute; reflexivity).
    rewrite E. repeat constructor; cbn; intuition discriminate. }
  destruct (parse_structs no_float Postgres [] [] (structs_in two_to_one)) as [[a cs]| |] eqn:E1; [|vm_compute in E1; discriminate..].
  vm_compute in E1. injection E1 as <- <-. do 3 eexists. split; [reflexivity|]. split; [exact O|]. split; [left; reflexivity|].
  split; [left; reflexivity|]. intro R. specialize (R _ (or_introl eq_refl) eq_refl eq_refl). discriminate R.
Qed.
Print Assumptions C78_refuted.

(** Two tables with keys, an index and references to each other are accepted, whereas names
    that do not exist are reported. *)
Definition film_and_copy (year film : bytes) : bytes := B"type FILM struct {
  sq.TableStruct `ddl:""unique=title," ++ year ++ B"""`
  ID sq.NumberField `ddl:""primarykey references={" ++ film ++ B" ondelete=cascade}""`
  TITLE sq.StringField `ddl:""index={. unique}""`
  YEAR sq.NumberField
}
type COPY struct {
  sq.TableStruct `ddl:""foreignkey={film,year references=film.id,year}""`
  FILM sq.NumberField
  YEAR sq.NumberField
}".
Example C78_case :
  let l := structs_in (film_and_copy (B"year") (B"copy.film")) in
  one_struct_each [] l /\ (forall m, modifiers_of l m -> type_readable m /\ names_reference Postgres m)
  /\ exists schemas, parse_structs no_float Postgres [] [] l = Ok (schemas, [])
     /\ live_keys schemas = [(B"film", B"film_title_year_key"); (B"film", B"film_id_pkey"); (B"film", B"film_id_fkey");
                             (B"copy", B"copy_film_year_fkey")].
Proof.
  cbv zeta. split; [|split].
  - apply nodup_one_each.
    assert (E : tables_of [] (structs_in (film_and_copy (B"year") (B"copy.film"))) = [([], B"film"); ([], B"copy")]) by (vm_compute; reflexivity).
    rewrite E. repeat constructor; cbn; intuition discriminate.
  - intros m (s & f & Hs & Hf & Hm).
    assert (H : In m (flat_map (fun s => flat_map f_mods (ts_fields s)) (structs_in (film_and_copy (B"year") (B"copy.film"))))).
    { apply in_flat_map. exists s. split; [exact Hs|]. apply in_flat_map. exists f. split; [exact Hf|exact Hm]. }
    clear s f Hs Hf Hm. set (l := flat_map _ _) in H. vm_compute in l. subst l. cbn [In] in H.
    destruct H as [<-|[<-|[<-|[<-|[<-|[]]]]]]; (split; intro N; [discriminate N|]); try discriminate N.
    intros m' P _. vm_compute in P. injection P as <-. eexists. split; [left; reflexivity|]. split; [reflexivity|]. left. reflexivity.
  - destruct (parse_structs no_float Postgres [] [] (structs_in (film_and_copy (B"year") (B"copy.film")))) as [[a cs]| |] eqn:E1; [|vm_compute in E1; discriminate..].
    vm_compute in E1. injection E1 as <- <-. eexists. split; [reflexivity|]. vm_compute. reflexivity.
Qed.
Definition reported (r : result (list schema * list complaint)) : list complaint := match r with Ok (_, cs) => cs | _ => [] end.
Example C78_reported :
  reported (reading Postgres (film_and_copy (B"yaer") (B"copy.film"))) = [NoSuchColumn (B"film") (B"yaer")]
  /\ reported (reading Postgres (film_and_copy (B"year") (B"copies.film"))) = [NoSuchTable [] (B"copies")]
  /\ reported (reading Postgres (film_and_copy (B"year") (B"copy.movie"))) = [NoSuchColumn (B"copy") (B"movie")].
Proof. vm_compute. auto. Qed.
