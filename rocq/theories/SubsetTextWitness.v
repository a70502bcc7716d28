(** Catalogs whose dump queries can be read, and some whose cannot. *)
From Verif Require Import GoStr GoStrFacts ModelSq SpecSql SpecInsert SpecTokens ModelDdl ModelSubset SpecSubset SubsetFacts SubsetWitness ModelSubsetText SpecSubsetText.

Definition good_nameb (d : dialect) (n : bytes) : bool := match lex_ident d (quote_identifier d n) with Some (x, []) => beqb x n | _ => false end.
Lemma good_nameb_ok d n : good_nameb d n = true -> good_name d n.
Proof. unfold good_nameb, good_name. destruct (lex_ident d (quote_identifier d n)) as [[x [|c r]]|]; try discriminate. destruct (beqb_spec x n) as [->|]; [reflexivity|discriminate]. Qed.
Definition good_columnsb (d : dialect) (l : list bytes) : bool := negb (match l with [] => true | _ => false end) && forallb (good_nameb d) l.
Lemma good_columnsb_ok d l : good_columnsb d l = true -> good_columns d l.
Proof. unfold good_columnsb. intros H. apply andb_prop in H as [H1 H2]. split; [intros ->; discriminate H1|]. intros c Ic. apply good_nameb_ok. rewrite forallb_forall in H2. exact (H2 c Ic). Qed.
Definition names_fitb (d : dialect) (cat : catalog) : bool :=
  forallb (fun t => (beqb (fst (t_id t)) [] || good_nameb d (fst (t_id t))) && good_nameb d (snd (t_id t)) && match t_pkey t with Some k => good_columnsb d k | None => true end
                    && good_columnsb d (dumped_columns t) && negb (tid_eqb (t_id t) ([], B"pkey_"))) (c_tables cat)
  && forallb (fun f => good_columnsb d (f_cols f) && good_columnsb d (f_rcols f)) (all_fks cat).
Lemma names_fit_if d cat : names_fitb d cat = true -> names_fit d cat.
Proof.
  unfold names_fitb. intros H. apply andb_prop in H as [H1 H2]. rewrite forallb_forall in H1, H2. split.
  - intros t It. specialize (H1 t It). repeat (apply andb_prop in H1 as [H1 ?]). split; [|apply good_nameb_ok; assumption]. intros N. apply good_nameb_ok. apply orb_prop in H1 as [H1|H1]; [|exact H1].
    destruct (beqb_spec (fst (t_id t)) []); [contradiction|discriminate H1].
  - intros t k It Ik. specialize (H1 t It). repeat (apply andb_prop in H1 as [H1 ?]). rewrite Ik in *. apply good_columnsb_ok. assumption.
  - intros f If. specialize (H2 f If). apply andb_prop in H2 as [A C]. split; apply good_columnsb_ok; assumption.
  - intros t It. specialize (H1 t It). repeat (apply andb_prop in H1 as [H1 ?]). apply good_columnsb_ok. assumption.
  - intros t It E. specialize (H1 t It). repeat (apply andb_prop in H1 as [H1 ?]). rewrite E, tid_eqb_refl in *. discriminate.
Qed.
Lemma shop_names d : names_fit d shop.
Proof. apply names_fit_if. destruct d; vm_compute; reflexivity. Qed.
Lemma shop_text_queries d : queries_fit d shop [Squery false s_orders [B"id"] [[B"1"]; [B"'a''b'"]]].
Proof.
  intros q [<-|[]]. cbn [y_table y_pkey y_records]. split; [cbn; auto|]. split; [reflexivity|]. split; [discriminate|]. intros r [<-|[<-|[]]]; (split; [reflexivity|]); intros s [<-|[]]; destruct d; vm_compute; discriminate.
Qed.
(** The query for a table, if it is not read. *)
Definition unread (d : dialect) (cat : catalog) (q : squery bytes) (i : tid) : bool :=
  match add_subsets cat [q] empty_subsetter with
  | Found ss => match subset_query d cat ss i with Ok s => match read_query d s with None => true | Some _ => false end | _ => false end
  | _ => false
  end.
Definition nothing : squery bytes := Squery false s_orders [B"id"] [].
Lemma unread_text d cat q i : unread d cat q i = true -> exists ss s, add_subsets cat [q] empty_subsetter = Found ss /\ subset_query d cat ss i = Ok s /\ read_query d s = None.
Proof.
  unfold unread. destruct (add_subsets cat [q] empty_subsetter) as [ss| |]; try discriminate. destruct (subset_query d cat ss i) as [s| |] eqn:E; try discriminate. destruct (read_query d s) eqn:R; [discriminate|]. intros _. exists ss, s. auto.
Qed.
Lemma no_rows_unread : ~ forall d cat qs ss t k s, catalog_ok cat -> closed cat -> names_fit d cat ->
  (forall q, In q qs -> In (y_table q) (c_tables cat) /\ t_pkey (y_table q) = Some (y_pkey q) /\ forall r, In r (y_records q) -> List.length r = List.length (y_pkey q) /\ forall s, In s r -> read_constant d s <> None) ->
  add_subsets cat qs empty_subsetter = Found ss -> In t (c_tables cat) -> t_pkey t = Some k -> subset_query d cat ss (t_id t) = Ok s -> read_query d s <> None.
Proof.
  intros H. destruct (unread_text Postgres shop nothing (t_id s_orders)) as (ss & s & E1 & E2 & E3); [vm_compute; reflexivity|].
  apply (H Postgres shop [nothing] ss s_orders [B"id"] s shop_ok shop_closed (shop_names Postgres)); [|exact E1|cbn; auto|reflexivity|exact E2|exact E3].
  intros q [<-|[]]. split; [cbn; auto|]. split; [reflexivity|]. intros r [].
Qed.
(** A table named like the keys, and one of whose columns all are generated. *)
Definition keys_table := plain_table (B"pkey_") [B"id"] [].
Definition keys_catalog := Catalog [] [keys_table].
Definition result_table := plain_table (B"query1_") [B"id"] [].
Definition result_catalog := Catalog [] [result_table].
Definition generated_table := Table (tn (B"t")) (Some [B"id"]) [(B"id", true)] [].
Definition generated_catalog := Catalog [] [generated_table].
