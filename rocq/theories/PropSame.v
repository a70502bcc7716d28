(** C80: the table structs written for a database describe that database. *)
From Coq Require Import Lia.
From Verif Require Import GoStr GoStrFacts ModelCatalog ModelCache ModelDdl ModelModifier SpecModifier ModifierFacts ModelDiff ModelDiffSql
  ModelGoTag ModelStructs ModelParser SpecGo SpecStructs SpecSame GoText StructsText ReadSame DiffWitness PropStructs.

(** The Go code written for a catalog is read, without any complaint, as the same catalog. *)
Definition told (flt : bytes -> bool) (cat : catalog) : Prop :=
  forall l, read_catalog cat = Ok l ->
  exists gs l' schemas, go_declarations (marshal_text l) = Some gs /\ visit_structs gs = Ok (l', [])
    /\ parse_structs flt (ct_dialect cat) (ct_current cat) [] l' = Ok (schemas, []) /\ same_catalog cat schemas.

(** ** C80 *)
(** For every catalog of a database whose structs are Go code. *)
Definition C80_full : Prop := forall flt cat, writable cat -> coherent cat -> told flt cat.

(** Proved for the catalogs that table structs can tell ([expressible], SpecSame.v), for every
    dialect.  Missing: the other catalogs, for which the claim does not hold. *)
Theorem C80_partial : forall flt cat, writable cat -> expressible flt cat -> told flt cat.
Proof.
  intros flt cat W H l E. pose proof (read_catalog_ok cat l W E) as Ok. destruct (text_read_back l Ok) as (A & V).
  destruct (catalog_same flt cat H l E) as (schemas & P & S).
  exists (map go_struct_of l), (map read_back_struct l), schemas. auto.
Qed.
(** The restriction is one to catalogs of databases. *)
Lemma expressible_coherent : forall flt cat, expressible flt cat -> coherent cat.
Proof.
  intros flt cat (F & N). split; [|exact N]. intros t Ht. destruct (F t Ht) as [A1 A2 A3 A4 A5 A6 A7 A8 A9 A10 A11]. constructor; auto.
  intros c Hc. destruct (A6 c Hc) as (K1 & K2 & K3 & K4 & K5). split; [exact K1|]. split; [exact K2|]. intro T. destruct (K5 T) as (L1 & L2 & _). auto.
Qed.

(** ** Catalogs that are not told *)
Lemma told_writable : forall flt cat l, writable cat -> read_catalog cat = Ok l -> told flt cat ->
  exists schemas, parse_structs flt (ct_dialect cat) (ct_current cat) [] (map read_back_struct l) = Ok (schemas, []) /\ same_catalog cat schemas.
Proof.
  intros flt cat l W E T. destruct (text_read_back l (read_catalog_ok cat l W E)) as (A & V). destruct (T l E) as (gs & l' & schemas & G & V' & P & S).
  rewrite A in G. injection G as <-. rewrite V in V'. injection V' as <-. eauto.
Qed.
Definition round (cat : catalog) : result (list schema * list complaint) :=
  match read_catalog cat with Ok l => parse_structs no_float (ct_dialect cat) (ct_current cat) [] (map read_back_struct l) | _ => Err end.
Lemma told_round : forall cat, writable cat -> (match read_catalog cat with Ok _ => true | _ => false end) = true -> told no_float cat ->
  exists schemas, round cat = Ok (schemas, []) /\ same_catalog cat schemas.
Proof.
  intros cat W E T. unfold round. destruct (read_catalog cat) as [l| |] eqn:R; try discriminate. exact (told_writable _ _ _ W R T).
Qed.
(** A test that implies that a catalog is one of a database; its keys are all live. *)
Definition is_coherent (cat : catalog) : bool :=
  let ts := tables_in (ct_schemas cat) in
  let key (t : table) (c : constraint) :=
    negb (none (con_columns c)) && forallb (fun n => bmem n (live_names t)) (con_columns c)
    && (negb (beqb (con_type c) FOREIGN_KEY)
        || existsb (fun u => beqb (place_of (ct_current cat) (tb_schema u)) (place_of (ct_current cat) (con_refschema c))
              && beqb (tb_name u) (con_reftable c) && forallb (fun n => bmem n (live_names u)) (con_refcolumns c)) ts
           && (List.length (con_refcolumns c) =? List.length (con_columns c))) in
  forallb (fun t => negb (none (filter (fun c => negb (col_ignore c)) (tb_columns t))) && nodupb (live_names t) && forallb (key t) (tb_constraints t)
                    && (List.length (filter (fun c => beqb (con_type c) PRIMARY_KEY) (tb_constraints t)) <=? 1)) ts
  && nodupb (map (fun t => place_of (ct_current cat) (tb_schema t) ++ B"." ++ tb_name t) ts).
Lemma names_in : forall l m, forallb (fun n => bmem n m) l = true -> incl l m.
Proof. intros l m H n Hn. rewrite forallb_forall in H. apply bmem_In. auto. Qed.
Lemma at_most_one : forall {A} (f : A -> bool) l a b, List.length (filter f l) <=? 1 = true -> In a l -> In b l -> f a = true -> f b = true -> a = b.
Proof.
  intros A f l a b H Ha Hb Fa Fb. assert (Ia : In a (filter f l)) by (apply filter_In; auto). assert (Ib : In b (filter f l)) by (apply filter_In; auto).
  apply Nat.leb_le in H. destruct (filter f l) as [|x [|]]; cbn in H; [contradiction| |lia]. destruct Ia as [<-|[]], Ib as [<-|[]]. reflexivity.
Qed.
Lemma coherent_of : forall cat, is_coherent cat = true -> coherent cat.
Proof.
  intros cat H. unfold is_coherent in H. apply andb_true_iff in H as (H & N). split.
  - intros t Ht. rewrite forallb_forall in H. specialize (H t Ht). do 3 (apply andb_true_iff in H as (H & ?)). constructor.
    + destruct (filter _ (tb_columns t)) as [|c l] eqn:E in H; [discriminate|]. exists c. assert (X : In c (filter (fun c => negb (col_ignore c)) (tb_columns t))) by (rewrite E; left; reflexivity).
      apply filter_In in X as (X & G). split; [exact X|apply negb_true_iff; exact G].
    + apply nodupb_ok. assumption.
    + intros c (Hc & _). rewrite forallb_forall in H1. specialize (H1 c Hc). do 2 (apply andb_true_iff in H1 as (H1 & ?)).
      split; [destruct (con_columns c); discriminate|]. split; [apply names_in; assumption|]. intro T. rewrite T, beqb_refl in H3. cbn [negb orb] in H3.
      apply andb_true_iff in H3 as (E & L). split; [|apply Nat.eqb_eq; exact L]. apply existsb_exists in E as (u & Hu & E).
      do 2 (apply andb_true_iff in E as (E & ?)). exists u. split; [exact Hu|]. split; [apply beqb_eq; exact E|]. split; [apply beqb_eq; assumption|apply names_in; assumption].
    + intros a b (Ha & _) (Hb & _) Ta Tb. eapply (at_most_one _ _ a b H0 Ha Hb); apply beqb_eq; assumption.
  - apply nodupb_ok in N. revert N. generalize (tables_in (ct_schemas cat)). intro l. induction l as [|t l IH]; intro N; [constructor|]. cbn [map] in *.
    inversion N as [|? ? Nt N']; subst. constructor; [|auto]. intro X. apply Nt. apply in_map_iff in X as (u & E & Hu).
    apply in_map_iff. exists u. split; [|exact Hu]. injection E as E1 E2. rewrite E1, E2. reflexivity.
Qed.
Lemma writable_of : forall cat, forallb (fun s => forallb is_table_ok (sc_tables s)) (ct_schemas cat) = true -> writable cat.
Proof.
  intros cat H s t Hs Ht. rewrite forallb_forall in H. specialize (H s Hs). rewrite forallb_forall in H. apply table_ok_of, H, Ht.
Qed.
Definition a_database (cat : catalog) : bool := is_coherent cat && forallb (fun s => forallb is_table_ok (sc_tables s)) (ct_schemas cat)
  && match read_catalog cat with Ok _ => true | _ => false end.
Lemma a_database_ok : forall cat, a_database cat = true -> writable cat /\ coherent cat /\ (match read_catalog cat with Ok _ => true | _ => false end) = true.
Proof. intros cat H. unfold a_database in H. do 2 (apply andb_true_iff in H as (H & ?)). split; [apply writable_of; assumption|]. split; [apply coherent_of; exact H|assumption]. Qed.
(** The only column of the only table is read with other properties. *)
Lemma one_column_differs : forall cat c, a_database cat = true ->
  match tables_in (ct_schemas cat) with [t] => filter (fun c => negb (col_ignore c)) (tb_columns t) = [c] | _ => False end ->
  (forall c', match round cat with Ok (l, _) => flat_map tb_columns (tables_in l) = [c'] | _ => False end -> ~ same_column (ct_collation cat) c c') ->
  ~ told no_float cat.
Proof.
  intros cat c D Hc Hn T. destruct (a_database_ok cat D) as (W & _ & R). destruct (told_round cat W R T) as (schemas & E & S1 & S2 & S3 & _).
  rewrite E in Hn. destruct (tables_in (ct_schemas cat)) as [|t [|]] eqn:Et; try contradiction.
  destruct (S1 t (or_introl eq_refl)) as (t' & Ht' & St). pose proof (st_columns _ _ _ _ _ St) as C. rewrite Hc in C.
  inversion C as [|? c' ? r Sc Cr Ec Er]; subst. inversion Cr; subst.
  apply (Hn c'); [|exact Sc].
  assert (Q : tables_in schemas = [t']).
  { assert (U : forall x, In x (tables_in schemas) -> tb_schema x = tb_schema t' /\ tb_name x = tb_name t').
    { intros x Hx. destruct (S2 x Hx) as (y & [<-|[]] & Sy). rewrite (st_schema _ _ _ _ _ Sy), (st_name _ _ _ _ _ Sy), (st_schema _ _ _ _ _ St), (st_name _ _ _ _ _ St). auto. }
    destruct (tables_in schemas) as [|a [|b l]]; [contradiction|destruct Ht' as [<-|[]]; reflexivity|exfalso].
    cbn [map] in S3. inversion S3 as [|? ? X _]; subst. apply X. left. destruct (U a) as (A1 & A2); [left; reflexivity|]. destruct (U b) as (B1 & B2); [right; left; reflexivity|].
    congruence. }
  rewrite Q. cbn. rewrite app_nil_r. symmetry. exact Er.
Qed.
Definition one_column (d : dialect) (c : column) (ks : list constraint) : catalog := one_schema d (B"db") [a_table (B"db") (B"t") [c] ks []].

(** MySQL: TIMESTAMP columns become DATETIME columns. *)
Definition stamped : catalog := one_column MySQL (a_column (B"seen") (B"TIMESTAMP")) [].
(** SQLite: the column of a text primary key becomes NOT NULL. *)
Definition text_key : catalog := one_column SQLite (a_column (B"code") (B"TEXT")) [a_key (B"db") (B"t") (B"t_code_pkey") PRIMARY_KEY [B"code"]].
(** Postgres: a default value loses its outermost brackets, even if they do not belong to each
    other. *)
Definition bracketed_default : catalog := one_column Postgres (required (B"area") (B"INT") (B"(1 + 2) * (3 + 4)")) [].
(** SQL Server: a type without a length gets one. *)
Definition short_type : catalog := one_column SQLServer (a_column (B"flag") (B"CHAR")) [].
(** Postgres: a reference to the column of the same name in another schema cannot be read: the
    schema is taken for the table and the table for the column. *)
Definition two_schemas : catalog :=
  a_catalog Postgres (B"public")
    [Schema (B"public") [a_table (B"public") (B"post") [a_column (B"user_id") (B"INT")]
       [a_fkey (B"public") (B"post") (B"post_user_id_fkey") [B"user_id"] (B"app") (B"users") [B"user_id"]] []] false;
     Schema (B"app") [a_table (B"app") (B"users") [required (B"user_id") (B"INT") []] [a_key (B"app") (B"users") (B"users_user_id_pkey") PRIMARY_KEY [B"user_id"]] []] false].

Lemma not_told_column : forall cat c c', a_database cat = true ->
  match tables_in (ct_schemas cat) with [t] => filter (fun c => negb (col_ignore c)) (tb_columns t) = [c] | _ => False end ->
  match round cat with Ok (l, _) => flat_map tb_columns (tables_in l) = [c'] | _ => True end ->
  (col_type c', col_notnull c', col_default c') <> (type_of c, col_notnull c, col_default c) ->
  writable cat /\ coherent cat /\ ~ told no_float cat.
Proof.
  intros cat c c' D Hc Hr N. destruct (a_database_ok cat D) as (W & C & _). split; [exact W|]. split; [exact C|].
  apply (one_column_differs cat c D Hc). intros c2 H2 Sm. destruct (round cat) as [[l cs]| |]; try contradiction.
  rewrite Hr in H2. injection H2 as <-. apply N. rewrite (sm_type _ _ _ Sm), (sm_notnull _ _ _ Sm), (sm_default _ _ _ Sm). reflexivity.
Qed.
Ltac not_told := eapply not_told_column; [vm_compute; reflexivity|vm_compute; reflexivity|vm_compute; reflexivity|vm_compute; discriminate].
Lemma stamped_not_told : writable stamped /\ coherent stamped /\ ~ told no_float stamped.
Proof. not_told. Qed.
Lemma text_key_not_told : writable text_key /\ coherent text_key /\ ~ told no_float text_key.
Proof. not_told. Qed.
Lemma bracketed_not_told : writable bracketed_default /\ coherent bracketed_default /\ ~ told no_float bracketed_default.
Proof. not_told. Qed.
Lemma short_type_not_told : writable short_type /\ coherent short_type /\ ~ told no_float short_type.
Proof. not_told. Qed.
Lemma two_schemas_not_told : writable two_schemas /\ coherent two_schemas /\ ~ told no_float two_schemas.
Proof.
  destruct (a_database_ok two_schemas) as (W & C & R); [vm_compute; reflexivity|]. split; [exact W|]. split; [exact C|]. intro T.
  destruct (told_round _ W R T) as (l & E & _). apply (f_equal (fun r => match r with Ok (_, cs) => List.length cs | _ => 0 end)) in E. vm_compute in E. discriminate.
Qed.
Theorem C80_refuted :
  ~ C80_full
  /\ (forall d, In d dialects -> exists cat, ct_dialect cat = d /\ writable cat /\ coherent cat /\ ~ told no_float cat)
  /\ match round two_schemas with Ok (_, cs) => cs = [NoSuchTable (B"public") (B"app")] | _ => False end.
Proof.
  split; [|split].
  - intro H. destruct two_schemas_not_told as (W & C & N). apply N. apply H; assumption.
  - intros d [<-|[<-|[<-|[<-|[]]]]].
    + exists text_key. split; [reflexivity|exact text_key_not_told].
    + exists bracketed_default. split; [reflexivity|exact bracketed_not_told].
    + exists stamped. split; [reflexivity|exact stamped_not_told].
    + exists short_type. split; [reflexivity|exact short_type_not_told].
  - vm_compute. reflexivity.
Qed.

(** ** A catalog that meets the hypotheses *)
(** A test that implies them; all objects are live. *)
Section Test.
Variables (cat : catalog).
Definition is_default (v : bytes) : bool :=
  is_empty v || is_quiet v && negb (has_prefix v (B"("))
    && (dialect_eqb (ct_dialect cat) Postgres
        || is_literal no_float v && negb (equal_fold v (B"TRUE")) && negb (equal_fold v (B"FALSE"))).
Definition is_type (c : column) : bool :=
  match normalize_column_type (ct_dialect cat) (type_of c) with
  | Ok (n, a1, _) => dialect_eqb (ct_dialect cat) SQLite || dialect_eqb (ct_dialect cat) Postgres
      || negb (bmem n (map B ["VARBINARY"; "BINARY"; "NVARCHAR"; "VARCHAR"; "CHAR"]%string)) || negb (is_empty a1)
  | _ => false
  end && negb (beqb (type_of c) (B"TIMESTAMP")) && negb (col_enum c).
Definition is_column (c : column) : bool :=
  is_column_ok c && negb (beqb (col_name c) (B"_")) && negb (beqb (col_name c) (B" ")) && is_type c && is_default (col_default c)
  && negb (equal_fold (col_type c) (B"INT")) && (negb (equal_fold (col_type c) (B"INTEGER")) || beqb (col_type c) (B"INTEGER"))
  && negb (col_autoincrement c) && is_empty (col_identity c) && negb (col_onupdate c).
Definition is_rule (r : bytes) : bool := bmem r [[]; NO_ACTION; CASCADE; SET_NULL; SET_DEFAULT].
Definition is_key (t : table) (c : constraint) : bool :=
  negb (none (con_columns c)) && forallb (fun n => bmem n (live_names t)) (con_columns c)
  && negb (con_deferrable c) && negb (con_deferred c)
  && (negb (beqb (con_type c) PRIMARY_KEY)
      || forallb (fun n => existsb (fun x => beqb (col_name x) n && col_notnull x) (tb_columns t)) (con_columns c))
  && (negb (beqb (con_type c) FOREIGN_KEY)
      || existsb (fun u => beqb (place_of (ct_current cat) (tb_schema u)) (place_of (ct_current cat) (con_refschema c))
              && beqb (tb_name u) (con_reftable c) && forallb (fun n => bmem n (live_names u)) (con_refcolumns c)) (tables_in (ct_schemas cat))
         && (List.length (con_refcolumns c) =? List.length (con_columns c))
         && (is_empty (con_refschema c) || beqb (con_refschema c) (ct_current cat)
             || negb (beqb (join (B",") (con_refcolumns c)) (join (B",") (con_columns c))))
         && negb (existsb (ceqb "."%char) (con_refschema c)) && is_quiet (con_refschema c)
         && is_rule (con_update c) && is_rule (con_delete c) && is_empty (con_match c)).
Definition is_index (t : table) (x : index) : bool :=
  is_simple_index x && forallb (fun n => bmem n (live_names t)) (ix_columns x) && is_empty (ix_type x).
Definition is_table (t : table) : bool :=
  is_go_word (tb_name t) && is_quiet (tb_schema t) && negb (existsb (ceqb "."%char) (tb_schema t))
  && negb (none (filter (fun c => negb (col_ignore c)) (tb_columns t))) && forallb is_column (tb_columns t)
  && nodupb (live_names t) && forallb (is_key t) (tb_constraints t) && nodupb (map (key_name (ct_dialect cat) t) (live_keys_of t))
  && (List.length (filter (fun c => beqb (con_type c) PRIMARY_KEY) (tb_constraints t)) <=? 1)
  && forallb (is_index t) (tb_indexes t) && nodupb (map (index_name t) (live_indexes_of t)) && negb (is_virtual t).
Lemma no_bracket : forall v, negb (has_prefix v (B"(")) = true -> ~ bracketed v.
Proof. intros v H (e & ->). cbn in H. discriminate. Qed.
Lemma quiet_tick : forall v, is_quiet v = true -> ~ In backtick v.
Proof. intros v H. apply (quiet_of v H). Qed.
Lemma column_fits_of : forall t c, a_live_column t c -> is_column c = true ->
  (forall k, a_live_key t k -> is_key t k = true) -> NoDup (live_names t) -> (forall c, In c (tb_columns t) -> col_ignore c = false) ->
  column_fits no_float (ct_dialect cat) t c.
Proof.
  intros t c Hc H HK N G. unfold is_column in H. do 9 (apply andb_true_iff in H as (H & ?)).
  split; [apply column_ok_of; exact H|]. split; [intro E; rewrite E in *; discriminate|]. split; [intro E; rewrite E in *; discriminate|].
  split.
  { unfold is_type in H6. do 2 (apply andb_true_iff in H6 as (H6 & ?)). split; [|split].
    - destruct (normalize_column_type (ct_dialect cat) (type_of c)) as [[[n a1] a2]| |]; try discriminate. exists n, a1, a2. split; [reflexivity|].
      apply orb_true_iff in H6 as [H6|H6]; [|right; right; intros _ ->; discriminate].
      apply orb_true_iff in H6 as [H6|H6]; [|right; right; intro M; apply bmem_In in M; unfold may_have_length in *; rewrite M in H6; discriminate].
      destruct (ct_dialect cat); cbn in H6; try discriminate; auto.
    - right. right. intro E. rewrite E in *. discriminate.
    - intro E. rewrite E in *. discriminate. }
  split.
  { unfold is_default in H5. destruct (col_default c) as [|a v] eqn:Ed; [left; reflexivity|]. rewrite <- Ed in *. replace (is_empty (col_default c)) with false in H5 by (rewrite Ed; reflexivity).
    cbn [orb] in H5. do 2 (apply andb_true_iff in H5 as (H5 & ?)). right. split; [apply quiet_tick; exact H5|].
    apply orb_true_iff in H9 as [X|X].
    - destruct (ct_dialect cat); try discriminate. apply no_bracket. assumption.
    - do 2 (apply andb_true_iff in X as (X & ?)). pose proof (no_bracket _ H10) as Nb.
      destruct (ct_dialect cat); try (left; split; [exact Nb|]; split; [exact X|]; intros _; split; apply negb_true_iff; assumption). exact Nb. }
  split; [intros _ _ _; split; [intro E; rewrite E in *; discriminate|intro E; rewrite E in *; apply beqb_eq; assumption]|].
  split.
  { intros (k & Hk & T & Hn). left. specialize (HK k Hk). unfold is_key in HK. do 5 (apply andb_true_iff in HK as (HK & ?)).
    rewrite T, beqb_refl in H10. cbn [negb orb] in H10. rewrite forallb_forall in H10. specialize (H10 _ Hn). apply existsb_exists in H10 as (x & Hx & E).
    apply andb_true_iff in E as (E & Nn). apply beqb_eq in E. replace c with x; [exact Nn|].
    apply (nodup_in col_name (filter (fun c => negb (col_ignore c)) (tb_columns t)) x c N); [|apply filter_In; rewrite (proj2 Hc); split; [apply Hc|reflexivity]|exact E].
    apply filter_In. rewrite (G x Hx). auto. }
  split; [intro E; rewrite E in *; discriminate|]. split; [left; destruct (col_identity c); [reflexivity|discriminate]|]. intro E; rewrite E in *; discriminate.
Qed.
Lemma no_dot : forall s, negb (existsb (ceqb "."%char) s) = true -> ~ In "."%char s.
Proof. intros s H X. apply negb_true_iff in H. assert (E : existsb (ceqb "."%char) s = true) by (apply existsb_exists; exists "."%char; split; [exact X|reflexivity]). congruence. Qed.
Lemma rule_fits_of : forall r, is_rule r = true -> rule_fits (ct_dialect cat) r.
Proof.
  intros r H. apply bmem_In in H. split; [cbn [In] in *; tauto|]. intros _ ->.
  repeat (destruct H as [H|H]; [vm_compute in H; discriminate|]). contradiction.
Qed.
Lemma key_fits_of : forall t c, is_key t c = true -> key_fits cat t c.
Proof.
  intros t c H. unfold is_key in H. do 5 (apply andb_true_iff in H as (H & ?)). unfold key_fits.
  split; [destruct (con_columns c); discriminate|]. split; [apply names_in; assumption|].
  split; [intro E; rewrite E in *; discriminate|]. split; [intro E; rewrite E in *; discriminate|]. intro T. rewrite T, beqb_refl in H0. cbn [negb orb] in H0.
  do 7 (apply andb_true_iff in H0 as (H0 & ?)). apply existsb_exists in H0 as (u & Hu & E). do 2 (apply andb_true_iff in E as (E & ?)).
  split; [exists u; split; [exact Hu|]; split; [apply beqb_eq; exact E|]; split; [apply beqb_eq; assumption|apply names_in; assumption]|].
  split; [apply Nat.eqb_eq; assumption|]. split.
  { apply orb_true_iff in H10 as [X|X]; [apply orb_true_iff in X as [X|X]|].
    - left. destruct (con_refschema c); [reflexivity|discriminate].
    - right. left. apply beqb_eq. exact X.
    - right. right. intro Y. rewrite Y, beqb_refl in X. discriminate. }
  split; [apply no_dot; assumption|]. split; [apply quiet_of; assumption|]. split; [apply rule_fits_of; assumption|]. split; [apply rule_fits_of; assumption|].
  destruct (con_match c); [reflexivity|discriminate].
Qed.
Lemma table_fits_of : forall t, (forall c, In c (tb_columns t) -> col_ignore c = false) -> is_table t = true -> table_fits no_float cat t.
Proof.
  intros t G H. unfold is_table in H. do 11 (apply andb_true_iff in H as (H & ?)). rewrite forallb_forall in *.
  assert (K : forall k, a_live_key t k -> is_key t k = true) by (intros k (Hk & _); auto).
  pose proof (nodupb_ok _ H6) as N. constructor; auto.
  - apply go_word_of. exact H.
  - split; [apply quiet_tick; assumption|apply no_dot; assumption].
  - destruct (filter _ (tb_columns t)) as [|c l] eqn:E in H8; [discriminate|]. exists c. assert (X : In c (filter (fun c => negb (col_ignore c)) (tb_columns t))) by (rewrite E; left; reflexivity).
    apply filter_In in X as (X & Y). split; [exact X|apply negb_true_iff; exact Y].
  - intros c Hc. apply column_fits_of; auto. apply H7. apply Hc.
  - intros c Hc. apply key_fits_of. auto.
  - apply nodupb_ok. assumption.
  - intros a b (Ha & _) (Hb & _) Ta Tb. eapply (at_most_one _ _ a b H3 Ha Hb); apply beqb_eq; assumption.
  - intros x (Hx & _). specialize (H2 x Hx). unfold is_index in H2. do 2 (apply andb_true_iff in H2 as (H2 & ?)). split; [exact H2|]. split; [apply names_in; assumption|].
    destruct (ix_type x); [|discriminate]. split; [split; [split; [constructor|right; discriminate]|intros []]|left; reflexivity].
  - apply nodupb_ok. assumption.
  - intros _ V. rewrite V in H0. discriminate.
Qed.
Lemma expressible_of : is_coherent cat && forallb (fun t => forallb (fun c => negb (col_ignore c)) (tb_columns t) && is_table t) (tables_in (ct_schemas cat)) = true ->
  expressible no_float cat.
Proof.
  intro H. apply andb_true_iff in H as (C & H). rewrite forallb_forall in H. split; [|apply (coherent_of cat C)]. intros t Ht. specialize (H t Ht). apply andb_true_iff in H as (G & H).
  rewrite forallb_forall in G. apply table_fits_of; [|exact H]. intros c Hc. apply negb_true_iff. auto.
Qed.
End Test.
(** Two schemas; keys of one and of two columns, references with rules into the same and into
    the other schema, indexes inside and outside of references, default values. *)
Definition shop (d : dialect) : catalog :=
  let fk (s t : bytes) (cols : list bytes) (rs rt : bytes) (rcols : list bytes) (rule : bytes) :=
    Constraint s t [] FOREIGN_KEY cols rs rt rcols rule [] [] [] [] [] [] false false false false false in
  a_catalog d (B"app")
    [Schema (B"app")
       [a_table (B"app") (B"customer") [required (B"customer_id") (B"INTEGER") []; a_column (B"Full Name") (B"VARCHAR(80)"); required (B"points") (B"BIGINT") (B"'0'")]
          [a_key (B"app") (B"customer") (B"pk") PRIMARY_KEY [B"customer_id"]; a_key (B"app") (B"customer") (B"u") UNIQUE [B"Full Name"]]
          [an_index (B"app") (B"customer") (B"i") [B"points"; B"customer_id"]];
        a_table (B"app") (B"purchase") [required (B"customer_id") (B"INTEGER") []; required (B"nr") (B"BIGINT") []; a_column (B"kind") (B"VARCHAR(5)")]
          [a_key (B"app") (B"purchase") (B"pk") PRIMARY_KEY [B"customer_id"; B"nr"];
           fk (B"app") (B"purchase") [B"customer_id"] (B"app") (B"customer") [B"customer_id"] CASCADE;
           fk (B"app") (B"purchase") [B"kind"] (B"lists") (B"Kind") [B"code"] []]
          [an_index (B"app") (B"purchase") (B"i") [B"customer_id"]]] false;
     Schema (B"lists")
       [a_table (B"lists") (B"Kind") [required (B"code") (B"VARCHAR(5)") (B"'x'")] [a_key (B"lists") (B"Kind") (B"pk") PRIMARY_KEY [B"code"]] []] false].
Example C80_case : forall d, In d dialects ->
  writable (shop d) /\ expressible no_float (shop d) /\ (match read_catalog (shop d) with Ok l => List.length l | _ => 0 end) = 3
  /\ match round (shop d) with Ok (l, []) => map (fun t => List.length (tb_constraints t)) (tables_in l) = [2; 3; 1] | _ => False end.
Proof.
  intros d [<-|[<-|[<-|[<-|[]]]]]; (split; [apply writable_of; vm_compute; reflexivity|]; split; [apply expressible_of; vm_compute; reflexivity|];
    split; vm_compute; reflexivity).
Qed.

Print Assumptions C80_partial.
Print Assumptions C80_refuted.
