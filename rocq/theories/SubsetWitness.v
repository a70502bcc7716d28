(** Databases whose subsets are not intact, and some whose subsets are. *)
From Verif Require Import GoStr GoStrFacts ModelSq ModelSubset SpecSubset SubsetFacts SubsetRows SubsetIntact SubsetComplete.

Definition tn (s : bytes) : tid := ([], s).
Definition plain_table (n : bytes) (cols : list bytes) (fks : list fkey) : table := Table (tn n) (Some [B"id"]) (map (fun c => (c, false)) cols) fks.
(** A database by its rows, which give the values of the columns in order. *)
Definition stored (cat : catalog) (data : list (bytes * list (list (option nat)))) : db nat := fun i r =>
  exists t recs rec, In t (c_tables cat) /\ t_id t = i /\ In (snd i, recs) data /\ In rec recs /\ r = row_of (map fst (t_cols t)) rec.
Ltac each := intros;
  repeat match goal with H : In _ (c_tables _) |- _ => cbn in H | H : In _ (all_fks _) |- _ => cbn in H | H : In _ (t_fks _) |- _ => progress (cbn in H) | H : _ \/ _ |- _ => destruct H | H : False |- _ => destruct H | H : _ = _ :> table |- _ => subst | H : _ = _ :> fkey |- _ => subst end.
Ltac nodups := repeat (apply NoDup_cons; [cbn; intros X; repeat (destruct X as [X|X]; [discriminate X|]); exact X|]); apply NoDup_nil.

Lemma closed_if cat : forallb (fun f => match find_table cat (f_to f) with Some _ => true | None => false end) (all_fks cat) = true -> closed cat.
Proof. intros H f I. rewrite forallb_forall in H. specialize (H f I). destruct (find_table cat (f_to f)) as [t|] eqn:E; [|discriminate H]. apply find_table_some in E. eauto. Qed.
(** ** A customer with two addresses *)
Definition f_billing := Fkey 1 (tn (B"customer")) [B"billing"] (tn (B"address")) [B"id"].
Definition f_shipping := Fkey 2 (tn (B"customer")) [B"shipping"] (tn (B"address")) [B"id"].
Definition f_city := Fkey 3 (tn (B"address")) [B"city"] (tn (B"city")) [B"id"].
Definition customer := plain_table (B"customer") [B"id"; B"billing"; B"shipping"] [f_billing; f_shipping].
Definition address := plain_table (B"address") [B"id"; B"city"] [f_city].
Definition city := plain_table (B"city") [B"id"] [].
Definition addresses := Catalog [] [customer; address; city].
Definition one_customer : list (bytes * list (list (option nat))) :=
  [(B"customer", [[Some 1; Some 10; Some 20]]); (B"address", [[Some 10; Some 100]; [Some 20; Some 200]]); (B"city", [[Some 100]; [Some 200]])].
Definition customer_query : squery (option nat) := Squery false customer [B"id"] [[Some 1]].
Lemma addresses_ok : catalog_ok addresses.
Proof.
  constructor.
  - cbn. nodups.
  - each; reflexivity.
  - cbn. nodups.
  - each; reflexivity.
  - each; reflexivity.
  - each; discriminate.
Qed.
Lemma addresses_closed : closed addresses.
Proof. apply closed_if. vm_compute. reflexivity. Qed.
(** Rows of the database: the table decides. *)
Lemma stored_in cat data i r : stored cat data i r -> forall t, NoDup (map t_id (c_tables cat)) -> In t (c_tables cat) -> t_id t = i -> exists recs rec, In (snd i, recs) data /\ In rec recs /\ r = row_of (map fst (t_cols t)) rec.
Proof.
  intros (t' & recs & rec & It' & E' & Id & Ir & ->) t N It E. assert (t' = t) as -> by (apply (nodup_map_inj t_id (c_tables cat)); congruence). eauto.
Qed.
Definition rows_of (data : list (bytes * list (list (option nat)))) (n : bytes) : list (list (option nat)) := flat_map (fun p => if beqb (fst p) n then snd p else []) data.
Lemma stored_rows cat data t r : catalog_ok cat -> In t (c_tables cat) -> stored cat data (t_id t) r -> exists rec, In rec (rows_of data (snd (t_id t))) /\ r = row_of (map fst (t_cols t)) rec.
Proof.
  intros CO It H. destruct (stored_in _ _ _ _ H t (co_tables _ CO) It eq_refl) as (recs & rec & A & C & E). exists rec. split; [|exact E].
  apply in_flat_map. exists (snd (t_id t), recs). split; [exact A|]. cbn [fst snd]. rewrite beqb_refl. exact C.
Qed.
(** Conditions on concrete rows, decided. *)
Definition equalb (a b : option nat) : bool := match a, b with Some x, Some y => x =? y | _, _ => false end.
Lemma equalb_ok a b : equal a b <-> equalb a b = true.
Proof.
  unfold equal, equalb. destruct a as [x|], b as [y|]; split; try discriminate; try (intros (v & A & C); congruence).
  - intros (v & A & C). apply Nat.eqb_eq. congruence.
  - intros E. apply Nat.eqb_eq in E. subst. eauto.
Qed.
(** A database is as it should be if this holds of the rows listed. *)
Definition all_pairs {A} (l : list A) (p : A -> A -> bool) : bool := forallb (fun x => forallb (p x) l) l.
Definition recs_eqb (a b : list (option nat)) : bool := forallb (fun p => equalb (fst p) (snd p) || match p with (None, None) => true | _ => false end) (combine a b) && (List.length a =? List.length b).
Lemma recs_eqb_ok a b : recs_eqb a b = true -> a = b.
Proof.
  unfold recs_eqb. revert b. induction a as [|x a IH]; intros [|y b] H; try reflexivity; try (rewrite andb_comm in H; discriminate H).
  cbn [combine forallb fst snd List.length Nat.eqb] in H. apply andb_true_iff in H as [H L]. apply andb_true_iff in H as [H1 H2]. f_equal.
  - destruct x as [x|], y as [y|]; cbn in H1; try discriminate H1; try reflexivity. rewrite orb_false_r in H1. apply Nat.eqb_eq in H1. congruence.
  - apply IH. rewrite H2, L. reflexivity.
Qed.
Definition key_okb (data : list (bytes * list (list (option nat)))) (t : table) : bool :=
  match t_pkey t with
  | None => true
  | Some pk => let rs := rows_of data (snd (t_id t)) in let cols := map fst (t_cols t) in
      all_pairs rs (fun a b => negb (forallb (fun c => equalb (row_of cols a c) (row_of cols b c)) pk) || recs_eqb a b)
      && forallb (fun a => forallb (fun c => match row_of cols a c with Some _ => true | None => false end) pk) rs
  end.
Definition refs_okb (cat : catalog) (data : list (bytes * list (list (option nat)))) (f : fkey) : bool :=
  match find_table cat (f_to f) with
  | None => false
  | Some t => let rs := rows_of data (snd (t_id t)) in let cols := map fst (t_cols t) in
      all_pairs rs (fun a b => negb (forallb (fun p => equalb (row_of cols a (snd p)) (row_of cols b (snd p))) (combine (f_cols f) (f_rcols f))) || recs_eqb a b)
  end.
Lemma stored_ok cat data : catalog_ok cat -> forallb (key_okb data) (c_tables cat) = true -> forallb (refs_okb cat data) (all_fks cat) = true -> db_ok cat (stored cat data).
Proof.
  intros CO K R. rewrite forallb_forall in K, R. constructor.
  - intros t pk r r' It Ip Dr Dr' H. specialize (K t It). unfold key_okb in K. rewrite Ip in K. apply andb_true_iff in K as [K _]. unfold all_pairs in K. rewrite forallb_forall in K.
    destruct (stored_rows _ _ _ _ CO It Dr) as (a & Ia & ->). destruct (stored_rows _ _ _ _ CO It Dr') as (b & Ib & ->). specialize (K a Ia). rewrite forallb_forall in K. specialize (K b Ib).
    apply orb_true_iff in K as [K|K]; [|apply recs_eqb_ok in K; subst; intros c; reflexivity]. apply negb_true_iff in K. exfalso. rewrite <- not_true_iff_false in K. apply K. apply forallb_forall. intros c Ic. apply equalb_ok. exact (H c Ic).
  - intros t pk r c It Ip Dr Ic. specialize (K t It). unfold key_okb in K. rewrite Ip in K. apply andb_true_iff in K as [_ K]. rewrite forallb_forall in K.
    destruct (stored_rows _ _ _ _ CO It Dr) as (a & Ia & ->). specialize (K a Ia). rewrite forallb_forall in K. specialize (K c Ic). intros E. rewrite E in K. discriminate K.
  - intros f r r1 r2 If D1 D2 H1 H2. specialize (R f If). unfold refs_okb in R. destruct (find_table cat (f_to f)) as [t|] eqn:Et; [|discriminate R]. apply find_table_some in Et as [It Et]. rewrite <- Et in *.
    unfold all_pairs in R. rewrite forallb_forall in R. destruct (stored_rows _ _ _ _ CO It D1) as (a & Ia & ->). destruct (stored_rows _ _ _ _ CO It D2) as (b & Ib & ->). specialize (R a Ia). rewrite forallb_forall in R. specialize (R b Ib).
    apply orb_true_iff in R as [R|R]; [|apply recs_eqb_ok in R; subst; intros c; reflexivity]. apply negb_true_iff in R. exfalso. rewrite <- not_true_iff_false in R. apply R. apply forallb_forall. intros [c c'] I. cbn [snd]. apply equalb_ok.
    apply equal_trans with (b := r c); [apply equal_sym; exact (H1 c c' I)|exact (H2 c c' I)].
Qed.
Lemma stored_row cat data t rec : In t (c_tables cat) -> (exists recs, In (snd (t_id t), recs) data /\ In rec recs) -> stored cat data (t_id t) (row_of (map fst (t_cols t)) rec).
Proof. intros It (recs & A & C). exists t, recs, rec. auto. Qed.

Definition customer_db := stored addresses one_customer.
Lemma customer_db_ok : db_ok addresses customer_db.
Proof. apply stored_ok; [exact addresses_ok|vm_compute; reflexivity|vm_compute; reflexivity]. Qed.
Lemma customer_queries_ok : queries_ok addresses [customer_query].
Proof. intros q [<-|[]]. split; [left; reflexivity|reflexivity]. Qed.
Definition billing_address : row nat := row_of [B"id"; B"city"] [Some 10; Some 100].
Definition billing_city : row nat := row_of [B"id"] [Some 100].
Ltac reading H := apply equalb_ok in H; vm_compute in H; discriminate H.
Lemma city_missing ss : add_subsets addresses [customer_query] empty_subsetter = Found ss ->
  dumped customer_db addresses ss (tn (B"address")) billing_address /\ customer_db (tn (B"city")) billing_city /\ refers f_city billing_address billing_city /\ ~ dumped customer_db addresses ss (tn (B"city")) billing_city.
Proof.
  intros E. assert (CO := addresses_ok). assert (CL := addresses_closed). assert (Q := customer_queries_ok).
  assert (Dc : customer_db (tn (B"city")) billing_city). { apply (stored_row addresses one_customer city); [cbn; auto|]. eexists. split; [right; right; left; reflexivity|left; reflexivity]. }
  assert (Da : customer_db (tn (B"address")) billing_address). { apply (stored_row addresses one_customer address); [cbn; auto|]. eexists. split; [right; left; reflexivity|left; reflexivity]. }
  assert (Du : customer_db (tn (B"customer")) (row_of [B"id"; B"billing"; B"shipping"] [Some 1; Some 10; Some 20])). { apply (stored_row addresses one_customer customer); [cbn; auto|]. eexists. split; [left; reflexivity|left; reflexivity]. }
  split; [|split; [exact Dc|split]].
  - apply (dumped_iff addresses CO CL customer_db [customer_query] ss Q (subsets_describe addresses CO CL _ Q ss E) address [B"id"]); [cbn; auto|reflexivity|]. split; [exact Da|].
    exists 0, customer_query. eexists. exists (Path [tn (B"customer"); tn (B"address")] [base_fkey 1 customer [B"id"]; f_billing]).
    exists (upd (upd (fun _ => row_of [B"id"] [Some 1]) (tn (B"customer")) (row_of [B"id"; B"billing"; B"shipping"] [Some 1; Some 10; Some 20])) (tn (B"address")) billing_address).
    split; [split; [reflexivity|vm_compute; reflexivity]|]. split; [right; left; reflexivity|]. split.
    + split; [exists [Some 1]; split; [left; reflexivity|reflexivity]|]. split.
      * cbn [j_tables]. intros i [<-|[<-|[]]]; [exact Du|exact Da].
      * cbn [j_fkeys]. intros f [<-|[<-|[]]] c c' [[= <- <-]|[]]; apply equalb_ok; reflexivity.
    + intros c [<-|[]]. apply equalb_ok. reflexivity.
  - intros c c' [[= <- <-]|[]]. apply equalb_ok. reflexivity.
  - intros H. apply (dumped_iff addresses CO CL customer_db [customer_query] ss Q (subsets_describe addresses CO CL _ Q ss E) city [B"id"]) in H as (_ & k & q & m & j & e & [F1 F2] & Ij & (_ & T & Fk) & K); [|cbn; auto|reflexivity].
    destruct k as [|k]; [|destruct k; discriminate F1]. injection F1 as <-. vm_compute in F2. injection F2 as <-.
    assert (Ej : j = Path [tn (B"customer"); tn (B"address"); tn (B"city")] [base_fkey 1 customer [B"id"]; f_shipping; f_city]) by (destruct Ij as [Ij|[]]; symmetry; exact Ij). subst j. clear Ij.
    cbn [j_tables j_fkeys] in *.
    destruct (stored_rows _ _ customer _ CO (or_introl eq_refl) (T _ (or_introl eq_refl))) as (a & Ia & Ea).
    destruct (stored_rows _ _ address _ CO (or_intror (or_introl eq_refl)) (T _ (or_intror (or_introl eq_refl)))) as (b & Ib & Eb).
    destruct (stored_rows _ _ city _ CO (or_intror (or_intror (or_introl eq_refl))) (T _ (or_intror (or_intror (or_introl eq_refl))))) as (c & Ic & Ec).
    pose proof (Fk f_shipping (or_intror (or_introl eq_refl)) (B"shipping") (B"id") (or_introl eq_refl)) as R1.
    pose proof (Fk f_city (or_intror (or_intror (or_introl eq_refl))) (B"city") (B"id") (or_introl eq_refl)) as R2.
    specialize (K (B"id") (or_introl eq_refl)). change (t_id city) with (tn (B"city")) in *. change (t_id customer) with (tn (B"customer")) in *. change (t_id address) with (tn (B"address")) in *.
    change (f_from f_shipping) with (tn (B"customer")) in R1. change (f_to f_shipping) with (tn (B"address")) in R1. change (f_from f_city) with (tn (B"address")) in R2. change (f_to f_city) with (tn (B"city")) in R2.
    rewrite Ea, Eb in R1. rewrite Eb, Ec in R2. rewrite Ec in K. vm_compute in Ia, Ib, Ic.
    destruct Ia as [<-|[]]; destruct Ib as [<-|[<-|[]]]; try (reading R1); destruct Ic as [<-|[<-|[]]]; try (reading R2); reading K.
Qed.
(** ** A hierarchy *)
Definition f_manager := Fkey 1 (tn (B"employee")) [B"manager"] (tn (B"employee")) [B"id"].
Definition employee := plain_table (B"employee") [B"id"; B"manager"] [f_manager].
Definition employees := Catalog [] [employee].
Definition two_employees : list (bytes * list (list (option nat))) := [(B"employee", [[Some 1; None]; [Some 2; Some 1]])].
Definition employee_query : squery (option nat) := Squery false employee [B"id"] [[Some 2]].
Definition employee_db := stored employees two_employees.
Lemma employees_ok : catalog_ok employees.
Proof. constructor; [cbn; nodups|each; reflexivity|cbn; nodups|each; reflexivity|each; reflexivity|each; discriminate]. Qed.
Lemma employees_closed : closed employees.
Proof. apply closed_if. vm_compute. reflexivity. Qed.
Lemma employee_db_ok : db_ok employees employee_db.
Proof. apply stored_ok; [exact employees_ok|vm_compute; reflexivity|vm_compute; reflexivity]. Qed.
Lemma employee_queries_ok : queries_ok employees [employee_query].
Proof. intros q [<-|[]]. split; [left; reflexivity|reflexivity]. Qed.
Lemma manager_missing ss : add_subsets employees [employee_query] empty_subsetter = Found ss ->
  let r := row_of [B"id"; B"manager"] [Some 2; Some 1] in let r' := row_of [B"id"; B"manager"] [Some 1; None] in
  dumped employee_db employees ss (tn (B"employee")) r /\ employee_db (tn (B"employee")) r' /\ refers f_manager r r' /\ ~ dumped employee_db employees ss (tn (B"employee")) r'.
Proof.
  intros E r r'. assert (CO := employees_ok). assert (CL := employees_closed). assert (Q := employee_queries_ok).
  assert (Dr : employee_db (tn (B"employee")) r). { apply (stored_row employees two_employees employee); [cbn; auto|]. eexists. split; [left; reflexivity|right; left; reflexivity]. }
  assert (Dr' : employee_db (tn (B"employee")) r'). { apply (stored_row employees two_employees employee); [cbn; auto|]. eexists. split; [left; reflexivity|left; reflexivity]. }
  split; [|split; [exact Dr'|split]].
  - apply (selected_dumped employees CO CL employee_db employee_db_ok [employee_query] Q ss E employee_query [Some 2] r); [left; reflexivity|exact Dr|left; reflexivity|]. intros c [<-|[]]. apply equalb_ok. reflexivity.
  - intros c c' [[= <- <-]|[]]. apply equalb_ok. reflexivity.
  - intros H. apply (dumped_iff employees CO CL employee_db [employee_query] ss Q (subsets_describe employees CO CL _ Q ss E) employee [B"id"]) in H as (_ & k & q & m & j & e & [F1 F2] & Ij & ((rec & Ir & Er) & T & Fk) & K); [|cbn; auto|reflexivity].
    destruct k as [|k]; [|destruct k; discriminate F1]. injection F1 as <-. vm_compute in F2. injection F2 as <-.
    assert (Ej : j = Path [tn (B"employee")] [base_fkey 1 employee [B"id"]]) by (destruct Ij as [Ij|[]]; symmetry; exact Ij). subst j. clear Ij. cbn [j_tables j_fkeys] in *.
    destruct (stored_rows _ _ employee _ CO (or_introl eq_refl) (T _ (or_introl eq_refl))) as (a & Ia & Ea). destruct Ir as [<-|[]].
    pose proof (Fk _ (or_introl eq_refl) (B"id") (B"id") (or_introl eq_refl)) as R1. specialize (K (B"id") (or_introl eq_refl)).
    change (f_from (base_fkey 1 employee [B"id"])) with (result_name 1) in R1. change (f_to (base_fkey 1 employee [B"id"])) with (tn (B"employee")) in R1. change (t_id employee) with (tn (B"employee")) in *.
    rewrite Er, Ea in R1. rewrite Ea in K. vm_compute in Ia. destruct Ia as [<-|[<-|[]]]; try (reading R1); reading K.
Qed.
(** ** A table left out by the filter *)
Definition no_cities := Catalog [] [customer; address].
Lemma no_cities_ok : catalog_ok no_cities.
Proof. constructor; [cbn; nodups|each; reflexivity|cbn; nodups|each; reflexivity|each; reflexivity|each; discriminate]. Qed.
Lemma no_cities_crash : subset_joins no_cities false 1 customer [B"id"] = Crash.
Proof. vm_compute. reflexivity. Qed.

(** ** Catalogs of the shapes *)
(** orders -> customer -> city, orders -> product -> city; both queries of orders and of customers. *)
Definition g_customer := Fkey 1 (tn (B"orders")) [B"customer"] (tn (B"customer")) [B"id"].
Definition g_product := Fkey 2 (tn (B"orders")) [B"product"] (tn (B"product")) [B"id"].
Definition g_city1 := Fkey 3 (tn (B"customer")) [B"city"] (tn (B"city")) [B"id"].
Definition g_city2 := Fkey 4 (tn (B"product")) [B"city"] (tn (B"city")) [B"id"].
Definition s_orders := plain_table (B"orders") [B"id"; B"customer"; B"product"] [g_customer; g_product].
Definition s_customer := plain_table (B"customer") [B"id"; B"city"] [g_city1].
Definition s_product := plain_table (B"product") [B"id"; B"city"] [g_city2].
Definition shop := Catalog [] [city; s_customer; s_orders; s_product].
Lemma shop_ok : catalog_ok shop.
Proof. constructor; [cbn; nodups|each; reflexivity|cbn; nodups|each; reflexivity|each; reflexivity|each; discriminate]. Qed.
Lemma shop_closed : closed shop.
Proof. apply closed_if. vm_compute. reflexivity. Qed.
Lemma shop_once : entered_once shop (tn (B"orders")).
Proof.
  intros f h. each; cbn in *; try discriminate; (split; [discriminate|]); intros g; each; cbn in *; try discriminate; reflexivity.
Qed.
Definition shop_data : list (bytes * list (list (option nat))) :=
  [(B"orders", [[Some 1; Some 10; Some 20]; [Some 2; Some 11; None]]); (B"customer", [[Some 10; Some 100]; [Some 11; Some 101]]); (B"product", [[Some 20; Some 101]; [Some 21; Some 102]]); (B"city", [[Some 100]; [Some 101]; [Some 102]])].
Lemma shop_db_ok : db_ok shop (stored shop shop_data).
Proof. apply stored_ok; [exact shop_ok|vm_compute; reflexivity|vm_compute; reflexivity]. Qed.
(** A tree: line -> orders -> customer -> city and line -> product, with the root customer. *)
Definition h_orders := Fkey 1 (tn (B"line")) [B"orders"] (tn (B"orders")) [B"id"].
Definition h_product := Fkey 2 (tn (B"line")) [B"product"] (tn (B"product")) [B"id"].
Definition h_customer := Fkey 3 (tn (B"orders")) [B"customer"] (tn (B"customer")) [B"id"].
Definition h_city := Fkey 4 (tn (B"customer")) [B"city"] (tn (B"city")) [B"id"].
Definition l_line := plain_table (B"line") [B"id"; B"orders"; B"product"] [h_orders; h_product].
Definition l_orders := plain_table (B"orders") [B"id"; B"customer"] [h_customer].
Definition l_customer := plain_table (B"customer") [B"id"; B"city"] [h_city].
Definition l_product := plain_table (B"product") [B"id"] [].
Definition lines := Catalog [] [city; l_customer; l_line; l_orders; l_product].
Lemma lines_ok : catalog_ok lines.
Proof. constructor; [cbn; nodups|each; reflexivity|cbn; nodups|each; reflexivity|each; reflexivity|each; discriminate]. Qed.
Lemma lines_closed : closed lines.
Proof. apply closed_if. vm_compute. reflexivity. Qed.
Definition lines_up (i : tid) : option fkey :=
  if tid_eqb i (tn (B"city")) then Some h_city else if tid_eqb i (tn (B"orders")) then Some h_customer else if tid_eqb i (tn (B"line")) then Some h_orders else if tid_eqb i (tn (B"product")) then Some h_product else None.
Definition lines_depth (i : tid) : nat :=
  if tid_eqb i (tn (B"customer")) then 0 else if tid_eqb i (tn (B"city")) then 1 else if tid_eqb i (tn (B"orders")) then 1 else if tid_eqb i (tn (B"line")) then 2 else 3.
Lemma lines_tree : tree lines (tn (B"customer")).
Proof. exists lines_up, lines_depth. split; [reflexivity|]. intros f. each; cbn; auto. Qed.
Definition lines_data : list (bytes * list (list (option nat))) :=
  [(B"line", [[Some 1; Some 5; Some 7]; [Some 2; Some 6; Some 8]]); (B"orders", [[Some 5; Some 10]; [Some 6; Some 11]]); (B"customer", [[Some 10; Some 100]; [Some 11; Some 101]]); (B"product", [[Some 7]; [Some 8]]); (B"city", [[Some 100]; [Some 101]])].
Lemma lines_db_ok : db_ok lines (stored lines lines_data).
Proof. apply stored_ok; [exact lines_ok|vm_compute; reflexivity|vm_compute; reflexivity]. Qed.
