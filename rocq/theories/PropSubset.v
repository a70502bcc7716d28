(** C47: a subset dump is referentially intact.  C48: computing a subset terminates with connected
    joins.  C49: a malformed subset query is reported as an error.  C72: a subset dump contains
    nothing that is not needed. *)
From Verif Require Import GoStr GoStrFacts ModelSq ModelDdl ModelSubset SpecSubset SubsetFacts SubsetRows SubsetIntact SubsetComplete SubsetTemplate SubsetPaths SubsetWitness.

(** ** C47 *)
(** As stated, for every catalog, database and list of queries. *)
Theorem C47_refuted : ~ forall V cat (D : db V) qs ss, catalog_ok cat -> closed cat -> db_ok cat D -> queries_ok cat qs -> add_subsets cat qs empty_subsetter = Found ss -> intact D cat ss.
Proof.
  intros H. destruct (subsets_found addresses addresses_ok addresses_closed [customer_query] customer_queries_ok) as (ss & E).
  specialize (H nat addresses customer_db [customer_query] ss addresses_ok addresses_closed customer_db_ok customer_queries_ok E).
  destruct (city_missing ss E) as (A & C & R & N). apply N. apply (H f_city billing_address billing_city); auto; [cbn; auto|]. exists city, [B"id"]. cbn. auto.
Qed.
Print Assumptions C47_refuted.
(** Two ways in which it fails: a table entered by two foreign keys, as the address of a customer,
    and a table that refers to itself. *)
Theorem C47_entered_twice_refuted : forall ss, add_subsets addresses [customer_query] empty_subsetter = Found ss ->
  dumped customer_db addresses ss (tn (B"address")) billing_address /\ customer_db (tn (B"city")) billing_city
  /\ refers f_city billing_address billing_city /\ ~ dumped customer_db addresses ss (tn (B"city")) billing_city.
Proof. exact city_missing. Qed.
Print Assumptions C47_entered_twice_refuted.
Theorem C47_self_reference_refuted : forall ss, add_subsets employees [employee_query] empty_subsetter = Found ss ->
  let r := row_of [B"id"; B"manager"] [Some 2; Some 1] in let r' := row_of [B"id"; B"manager"] [Some 1; None] in
  dumped employee_db employees ss (tn (B"employee")) r /\ employee_db (tn (B"employee")) r' /\ refers f_manager r r' /\ ~ dumped employee_db employees ss (tn (B"employee")) r'.
Proof. exact manager_missing. Qed.
Print Assumptions C47_self_reference_refuted.
Example C47_refuted_example : catalog_ok addresses /\ closed addresses /\ db_ok addresses customer_db /\ queries_ok addresses [customer_query]
  /\ catalog_ok employees /\ closed employees /\ db_ok employees employee_db /\ queries_ok employees [employee_query].
Proof. exact (conj addresses_ok (conj addresses_closed (conj customer_db_ok (conj customer_queries_ok (conj employees_ok (conj employees_closed (conj employee_db_ok employee_queries_ok))))))). Qed.
(** What holds: the dump is intact, and contains all that is needed, if every query is plain and no
    table with foreign keys is entered twice, or the foreign keys form a tree around its table. *)
Theorem C47_intact_partial : forall V cat (D : db V) qs ss, catalog_ok cat -> closed cat -> db_ok cat D -> queries_ok cat qs -> add_subsets cat qs empty_subsetter = Found ss ->
  (forall q, In q qs -> (y_extended q = false /\ entered_once cat (t_id (y_table q))) \/ tree cat (t_id (y_table q))) -> intact D cat ss.
Proof. intros V cat D qs ss CO CL OK Q E. exact (shaped_intact cat CO CL D OK qs Q ss E). Qed.
Print Assumptions C47_intact_partial.
Theorem C47_complete_partial : forall V cat (D : db V) qs ss, catalog_ok cat -> closed cat -> db_ok cat D -> queries_ok cat qs -> add_subsets cat qs empty_subsetter = Found ss ->
  (forall q, In q qs -> (y_extended q = false /\ entered_once cat (t_id (y_table q))) \/ tree cat (t_id (y_table q))) ->
  forall i r, keyed cat i -> (dumped D cat ss i r <-> needed D cat qs i r).
Proof. intros V cat D qs ss CO CL OK Q E Sh i r K. split; [exact (sound cat CO CL D OK qs Q ss E i r K)|exact (complete cat CO CL D OK qs Q ss E i r Sh K)]. Qed.
Print Assumptions C47_complete_partial.
(** The rows selected by the queries are dumped, whatever the shape. *)
Theorem C47_selected : forall V cat (D : db V) qs ss, catalog_ok cat -> closed cat -> db_ok cat D -> queries_ok cat qs -> add_subsets cat qs empty_subsetter = Found ss ->
  forall i r, selected D qs i r -> dumped D cat ss i r.
Proof.
  intros V cat D qs ss CO CL OK Q E i r (Dr & q & rec & Iq & <- & Ir & K). exact (selected_dumped cat CO CL D OK qs Q ss E q rec r Iq Dr Ir K).
Qed.
Print Assumptions C47_selected.
(** Shops: orders of customers and products, and lines of orders with an extended query. *)
Example C47_example_once : catalog_ok shop /\ closed shop /\ db_ok shop (stored shop shop_data) /\ entered_once shop (tn (B"orders"))
  /\ (forall m, subset_joins shop false 1 s_orders [B"id"] = Found m -> List.length (get_joins (tn (B"city")) m) = 2).
Proof.
  split; [exact shop_ok|]. split; [exact shop_closed|]. split; [exact shop_db_ok|]. split; [exact shop_once|]. intros m E. vm_compute in E. injection E as <-. reflexivity.
Qed.
Example C47_example_tree : catalog_ok lines /\ closed lines /\ db_ok lines (stored lines lines_data) /\ tree lines (tn (B"customer"))
  /\ (forall m, subset_joins lines true 1 l_customer [B"id"] = Found m -> List.length m = 5).
Proof.
  split; [exact lines_ok|]. split; [exact lines_closed|]. split; [exact lines_db_ok|]. split; [exact lines_tree|]. intros m E. vm_compute in E. injection E as <-. reflexivity.
Qed.

(** ** C48 *)
(** As stated, for every catalog. *)
Theorem C48_refuted : ~ forall cat ext n t pk, catalog_ok cat -> In t (c_tables cat) -> exists m, subset_joins cat ext n t pk = Found m.
Proof.
  intros H. destruct (H no_cities false 1 customer [B"id"] no_cities_ok) as (m & E); [left; reflexivity|]. rewrite no_cities_crash in E. discriminate E.
Qed.
Print Assumptions C48_refuted.
(** The search ends in any case ... *)
Theorem C48_terminates : forall cat ext n t pk, catalog_ok cat -> In t (c_tables cat) -> subset_joins cat ext n t pk <> Fuel.
Proof. intros cat ext n t pk CO It. exact (subset_ends cat n t pk CO It ext). Qed.
Print Assumptions C48_terminates.
(** ... visiting no foreign key twice ... *)
Theorem C48_once : forall cat fuel todo v m v' m', NoDup v ->
  (forward fuel cat todo v m = Found (v', m') -> NoDup v') /\ (backward fuel cat todo v m = Found (v', m') -> NoDup v').
Proof. intros cat fuel todo v m v' m' N. split; [exact (forward_once cat fuel todo v m v' m' N)|exact (backward_once cat fuel todo v m v' m' N)]. Qed.
Print Assumptions C48_once.
(** ... and if every table referred to is in the catalog, it finds paths to tables, each of which is
    connected, contains no table twice and gives joins of the tables on it. *)
Theorem C48_joins_partial : forall cat ext n t pk, catalog_ok cat -> closed cat -> In t (c_tables cat) -> exists m, subset_joins cat ext n t pk = Found m
  /\ NoDup (map fst m) /\ In (t_id t) (map fst m)
  /\ forall i js, In (i, js) m -> js <> [] /\ forall j, In j js -> path_to cat n (t_id t) i j
       /\ exists s, to_sql j = Some s /\ sj_first s :: map fst (sj_rest s) = rev (j_tables j) ++ [result_name n] /\ well_formed s.
Proof. exact joins_found. Qed.
Print Assumptions C48_joins_partial.
(** Every table needed gets a query, and no query is made for others: see C47_complete_partial. *)
Example C48_example : In s_orders (c_tables shop) /\ (forall s, to_sql (Path [tn (B"orders"); tn (B"customer"); tn (B"city")] [Fkey 0 (result_name 1) [B"id"] (tn (B"orders")) [B"id"]; g_customer; g_city1]) = Some s ->
  sj_first s = tn (B"city") /\ map fst (sj_rest s) = [tn (B"customer"); tn (B"orders"); ([], B"query1_")]).
Proof. split; [cbn; auto|]. intros s E. vm_compute in E. injection E as <-. split; reflexivity. Qed.

(** ** C49 *)
(** As stated, for every text. *)
Theorem C49_refuted : ~ forall d cat query, expand d cat query <> Panic.
Proof. intros H. apply (H SQLite shop (B"SELECT {*} FROM {orders} WHERE name = '{")). vm_compute. reflexivity. Qed.
Print Assumptions C49_refuted.
(** The ways in which it fails: a brace at the end, no table, no star, or the star after the
    table. *)
Theorem C49_panics_refuted :
  expand SQLite shop (B"SELECT {*} FROM {orders} WHERE name = '{") = Panic /\ expand SQLite shop (B"SELECT {*} FROM orders") = Panic
  /\ expand SQLite shop (B"SELECT id FROM {orders}") = Panic /\ expand SQLite shop (B"SELECT id FROM {orders} WHERE id IN (SELECT {*} FROM t)") = Panic.
Proof. repeat split; vm_compute; reflexivity. Qed.
Print Assumptions C49_panics_refuted.
(** What holds: a template with the star and then the table, and doubled braces elsewhere, is
    expanded or rejected because of its table. *)
Theorem C49_expand_partial : forall d cat p m nm r, text_ok p -> text_ok m -> text_ok r -> name_ok nm ->
  expand d cat (p ++ B"{*}" ++ m ++ lbrace :: nm ++ rbrace :: r) =
  match find_table cat (named cat nm) with
  | None => Err
  | Some t => match t_pkey t with
              | None => Err
              | Some pk => Ok (t, pk, p ++ join (B", ") (map (fun c => full_name d (t_id t) ++ B"." ++ quote_identifier d c) pk) ++ m ++ full_name d (t_id t) ++ r)
              end
  end.
Proof. exact expand_template. Qed.
Print Assumptions C49_expand_partial.
(** A brace that is not closed is an error, unless it is the last character. *)
Theorem C49_unclosed_partial : forall d cat ps s, (forall p, In p ps -> piece_ok p) -> s <> [] -> ~ In rbrace s -> (forall s', s <> lbrace :: s') ->
  expand d cat (flat_map render ps ++ lbrace :: s) = Err.
Proof. exact expand_unclosed. Qed.
Print Assumptions C49_unclosed_partial.
(** A second star or table is an error, unless the first is at the beginning of the text. *)
Theorem C49_twice_partial : forall d cat ps1 x ps2, (forall p, In p (ps1 ++ x :: ps2) -> piece_ok p) -> flat_map render ps1 <> [] ->
  (x = Star /\ In Star ps2) \/ ((exists nm, x = Name nm) /\ exists nm, In (Name nm) ps2) -> expand d cat (flat_map render (ps1 ++ x :: ps2)) = Err.
Proof. exact expand_twice. Qed.
Print Assumptions C49_twice_partial.
Example C49_example : text_ok (B"SELECT ") /\ name_ok (B"orders") /\ text_ok (B" WHERE note = '{{'")
  /\ (forall t pk q, expand Postgres shop (B"SELECT {*} FROM {orders} WHERE note = '{{'") = Ok (t, pk, q) -> q = B"SELECT orders.id FROM orders WHERE note = '{{'")
  /\ expand Postgres shop (B"SELECT {*} FROM {nothing}") = Err /\ expand Postgres shop (B"SELECT {*} FROM {orders") = Err.
Proof.
  split; [repeat (apply text_char; [discriminate|]); apply text_nil|]. split; [split; [discriminate|]; split; [cbn; intros X; repeat (destruct X as [X|X]; [discriminate X|]); exact X|discriminate]|].
  split; [repeat (apply text_char; [discriminate|]); apply text_doubled, text_char; [discriminate|apply text_nil]|]. split; [intros t pk q E; vm_compute in E; injection E as _ _ <-; reflexivity|]. split; vm_compute; reflexivity.
Qed.

(** ** C72 *)
(** Every row dumped is selected by a query, refers to such a row if the query is extended, or is
    referred to by rows needed. *)
Theorem C72_needed : forall V cat (D : db V) qs ss, catalog_ok cat -> closed cat -> db_ok cat D -> queries_ok cat qs -> add_subsets cat qs empty_subsetter = Found ss ->
  forall i r, keyed cat i -> dumped D cat ss i r -> needed D cat qs i r.
Proof. intros V cat D qs ss CO CL OK Q E i r K. exact (sound cat CO CL D OK qs Q ss E i r K). Qed.
Print Assumptions C72_needed.
(** The rows of tables without primary key are not dumped. *)
Theorem C72_keyed : forall V cat (D : db V) (ss : subsetter (option V)) i r, dumped D cat ss i r -> keyed cat (if beqb (fst i) [] then c_cur cat else fst i, snd i).
Proof. intros V cat D ss i r. exact (dumped_table cat D ss i r). Qed.
Print Assumptions C72_keyed.
Example C72_example : keyed addresses (tn (B"city")) /\ catalog_ok addresses /\ closed addresses /\ db_ok addresses customer_db /\ queries_ok addresses [customer_query].
Proof. split; [exists city, [B"id"]; cbn; auto|]. exact (conj addresses_ok (conj addresses_closed (conj customer_db_ok customer_queries_ok))). Qed.
