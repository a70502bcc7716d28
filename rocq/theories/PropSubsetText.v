(** C73: the keys selected for a subset are written as the values they are.  C74: the query that
    dumps a table of a subset can be read by the database and selects the rows meant.  C49: what a
    template is expanded to. *)
From Verif Require Import GoStr GoStrFacts ModelSq SpecSql SpecInsert SpecTokens ModelDdl ModelSubset SpecSubset SubsetFacts SubsetRows SubsetIntact SubsetComplete SubsetTemplate SubsetPaths SubsetWitness
  ModelSubsetText SpecSubsetText SubsetTextFacts SubsetTextQuery SubsetTextRows SubsetTextLiterals SubsetTextWitness.

(** ** C73 *)
(** As stated, for every value of a key. *)
Theorem C73_refuted : ~ forall parses d ty k sc, scan_key d ty k = Some sc -> denotes d ty (key_literal parses d ty sc) k.
Proof.
  intros H. apply (fraction_lost (fun _ => false) MySQL (B"DATETIME") (B"2020-01-02 03:04:05") 500000000%N); [reflexivity|split; reflexivity|]. apply H. reflexivity.
Qed.
Print Assumptions C73_refuted.
(** A time with a fraction of a second is always changed. *)
Theorem C73_fractions_refuted : forall parses d ty second ns, forallb time_char second = true -> (0 < ns < 1000000000)%N ->
  ~ denotes d ty (key_literal parses d ty (STime (Some (second, ns)))) (KvTime second ns).
Proof. exact fraction_lost. Qed.
Print Assumptions C73_fractions_refuted.
(** Other ways in which it fails: doubled quotes, backslashes in MySQL, Postgres columns that are
    not compared with text, and values of SQLite that do not have the type of their column. *)
Definition unfaithful (d : dialect) (ty : bytes) (k : keyval) : Prop := exists sc, scan_key d ty k = Some sc /\ ~ denotes d ty (key_literal (fun _ => false) d ty sc) k.
Lemma unfaithful_by d ty k sc : scan_key d ty k = Some sc -> (forall v, read_constant d (key_literal (fun _ => false) d ty sc) = Some v -> ~ stands_for d ty v k) -> unfaithful d ty k.
Proof. intros E H. exists sc. split; [exact E|]. intros (v & R & S). exact (H v R S). Qed.
Theorem C73_ways_refuted :
  unfaithful Postgres (B"TEXT") (KvText (B"it''s")) /\ unfaithful MySQL (B"VARCHAR") (KvText (B"a\b"))
  /\ unfaithful Postgres (B"UUID") (KvText (B"6ba7b810-9dad-11d1-80b4-00c04fd430c8")) /\ unfaithful Postgres (B"BYTEA") (KvBytes (B"ab"))
  /\ unfaithful Postgres (B"TIMESTAMPTZ") (KvTime (B"2020-01-02 03:04:05") 0)
  /\ unfaithful SQLite (B"INT") (KvText (B"abc")) /\ unfaithful SQLite (B"BLOB") (KvText (B"abc")).
Proof.
  repeat split; (eapply unfaithful_by; [reflexivity|]; intros v R; vm_compute in R; try discriminate R; injection R as <-; cbn; intros S).
  - destruct S as [S _]. discriminate S.
  - destruct S as [S _]. discriminate S.
  - destruct S as [_ S]. specialize (S eq_refl). cbn in S. repeat (destruct S as [S|S]; [discriminate S|]). exact S.
  - exact S.
  - destruct S as [S _]. apply S. reflexivity.
  - exact S.
Qed.
Print Assumptions C73_ways_refuted.
(** What holds: all other values are written such that the database reads them back. *)
Theorem C73_partial : forall parses d ty k sc, scan_key d ty k = Some sc -> faithful parses d ty k -> denotes d ty (key_literal parses d ty sc) k.
Proof. exact literal_denotes. Qed.
Print Assumptions C73_partial.
Example C73_example :
  (exists sc, scan_key MySQL (B"BIGINT") (KvInt (-12)) = Some sc /\ key_literal (fun _ => false) MySQL (B"BIGINT") sc = B"-12") /\ faithful (fun _ => false) MySQL (B"BIGINT") (KvInt (-12))
  /\ (exists sc, scan_key Postgres (B"TEXT") (KvText (B"it's")) = Some sc /\ key_literal (fun _ => false) Postgres (B"TEXT") sc = B"'it''s'") /\ faithful (fun _ => false) Postgres (B"TEXT") (KvText (B"it's"))
  /\ (exists sc, scan_key SQLServer (B"VARBINARY") (KvBytes (B"ab")) = Some sc /\ key_literal (fun _ => false) SQLServer (B"VARBINARY") sc = B"0x6162") /\ faithful (fun _ => false) SQLServer (B"VARBINARY") (KvBytes (B"ab")).
Proof.
  split; [eexists; split; reflexivity|]. split; [discriminate|]. split; [eexists; split; reflexivity|]. split.
  - split; [|split; [discriminate|]; split; [cbn; auto|discriminate]]. intros (a & c & b & E). destruct a as [|a1 [|a2 [|a3 [|a4 a5]]]]; cbn in E; try discriminate E. destruct a5; discriminate E.
  - split; [eexists; split; reflexivity|]. split; discriminate.
Qed.

(** ** C74 *)
(** As stated: for every catalog, and queries whatever they select, the text for a table is read. *)
Theorem C74_refuted : ~ forall d cat qs ss t k s, catalog_ok cat -> closed cat -> names_fit d cat ->
  (forall q, In q qs -> In (y_table q) (c_tables cat) /\ t_pkey (y_table q) = Some (y_pkey q) /\ forall r, In r (y_records q) -> List.length r = List.length (y_pkey q) /\ forall s, In s r -> read_constant d s <> None) ->
  add_subsets cat qs empty_subsetter = Found ss -> In t (c_tables cat) -> t_pkey t = Some k -> subset_query d cat ss (t_id t) = Ok s -> read_query d s <> None.
Proof. exact no_rows_unread. Qed.
Print Assumptions C74_refuted.
(** The ways in which it fails: a query that selects nothing, tables of SQLite named pkey_ or like
    the results of a query, and a table of whose columns all are generated. *)
Theorem C74_ways_refuted :
  (forall d, unread d shop nothing (tn (B"orders")) = true) /\ unread SQLite keys_catalog (Squery false keys_table [B"id"] [[B"1"]]) (tn (B"pkey_")) = true
  /\ unread SQLite result_catalog (Squery false result_table [B"id"] [[B"1"]]) (tn (B"query1_")) = true
  /\ (forall d, unread d generated_catalog (Squery false generated_table [B"id"] [[B"1"]]) (tn (B"t")) = true).
Proof. repeat split; try (intros d; destruct d); vm_compute; reflexivity. Qed.
Print Assumptions C74_ways_refuted.
(** What holds: the query for a table can be read, is about the table and its columns, and selects
    the rows of which SpecSubset says that they are dumped. *)
Theorem C74_rows_partial : forall d cat qs, catalog_ok cat -> closed cat -> names_fit d cat -> queries_fit d cat qs ->
  exists ss sv, add_subsets cat qs empty_subsetter = Found ss /\ add_subsets cat (map (valued d) qs) empty_subsetter = Found sv
  /\ forall t k, In t (c_tables cat) -> t_pkey t = Some k -> subset_query d cat ss (t_id t) <> Panic
     /\ (forall s, subset_query d cat ss (t_id t) = Ok s -> exists q, read_query d s = Some q /\ sq_table q = t_id t /\ sq_key q = k /\ sq_columns q = dumped_columns t)
     /\ forall D r, (exists s, subset_query d cat ss (t_id t) = Ok s /\ selects d D s r) <-> dumped D cat sv (t_id t) r.
Proof. intros d cat qs CO CL NF QF. exact (text_rows d cat CO CL NF qs QF). Qed.
Print Assumptions C74_rows_partial.
(** Hence the texts select exactly the rows needed, if the foreign keys have one of the shapes of
    C47, and never rows that are not needed. *)
Theorem C74_needed_partial : forall d cat qs ss D t k r, catalog_ok cat -> closed cat -> names_fit d cat -> queries_fit d cat qs -> db_ok cat D ->
  add_subsets cat qs empty_subsetter = Found ss -> In t (c_tables cat) -> t_pkey t = Some k ->
  ((exists s, subset_query d cat ss (t_id t) = Ok s /\ selects d D s r) -> needed D cat (map (valued d) qs) (t_id t) r)
  /\ ((forall q, In q qs -> (y_extended q = false /\ entered_once cat (t_id (y_table q))) \/ tree cat (t_id (y_table q))) ->
      needed D cat (map (valued d) qs) (t_id t) r -> exists s, subset_query d cat ss (t_id t) = Ok s /\ selects d D s r).
Proof. exact text_needed. Qed.
Print Assumptions C74_needed_partial.
Example C74_example : catalog_ok shop /\ closed shop /\ (forall d, names_fit d shop) /\ (forall d, queries_fit d shop [Squery false s_orders [B"id"] [[B"1"]; [B"'a''b'"]]])
  /\ (forall ss, add_subsets shop [Squery false s_orders [B"id"] [[B"1"]; [B"'a''b'"]]] empty_subsetter = Found ss -> forall s, subset_query SQLServer shop ss (tn (B"product")) = Ok s -> s =
       B"WITH query1_  AS (" ++ LF :: B"    SELECT * FROM (VALUES (1),('a''b')) AS tmp (id)" ++ LF :: B")" ++ LF :: B",pkey_ (id) AS (" ++ LF :: B"    SELECT DISTINCT product.id" ++ LF :: B"    FROM product"
       ++ LF :: B"    JOIN orders ON orders.product = product.id" ++ LF :: B"    JOIN query1_ ON query1_.id = orders.id" ++ LF :: B")" ++ LF :: B"SELECT product.id" ++ LF :: B"    ,product.city" ++ LF :: B"FROM product"
       ++ LF :: B"JOIN pkey_ ON pkey_.id = product.id" ++ LF :: B"ORDER BY product.id" ++ LF :: B";").
Proof.
  split; [exact shop_ok|]. split; [exact shop_closed|]. split; [exact shop_names|]. split; [exact shop_text_queries|]. intros ss E s Es. vm_compute in E. injection E as <-. vm_compute in Es. injection Es as <-. vm_compute. reflexivity.
Qed.

(** ** C49 *)
(** What a template is expanded to: the star stands for the columns of the key, and the name for
    the table, as the database reads them. *)
Theorem C49_meaning_partial : forall d cat p m nm r t k, text_ok p -> text_ok m -> text_ok r -> name_ok nm -> find_table cat (named cat nm) = Some t -> t_pkey t = Some k ->
  good_table d (t_id t) -> good_columns d k ->
  exists a b, expand d cat (p ++ B"{*}" ++ m ++ lbrace :: nm ++ rbrace :: r) = Ok (t, k, p ++ a ++ m ++ b ++ r)
  /\ (exists ts, tokens d a = Some ts /\ column_refs d ts = Some (map (fun c => (t_id t, c)) k, []))
  /\ exists ts, tokens d b = Some ts /\ table_ref d ts = Some (t_id t, []).
Proof.
  intros d cat p m nm r t k Hp Hm Hr Hn Ft Fk Gt Gk. destruct (template_names d (t_id t) k Gt Gk) as [A C]. eexists; eexists. split; [|split; [exact C|exact A]]. pose proof (expand_template d cat p m nm r Hp Hm Hr Hn) as X. rewrite Ft, Fk in X. exact X.
Qed.
Print Assumptions C49_meaning_partial.
Example C49_meaning_example : forall d, good_table d (t_id s_orders) /\ good_columns d [B"id"] /\ find_table shop (named shop (B"orders")) = Some s_orders.
Proof. intros d. split; [apply (nf_table d shop (shop_names d)); cbn; auto|]. split; [apply (nf_key d shop (shop_names d) s_orders); [cbn; auto|reflexivity]|reflexivity]. Qed.
