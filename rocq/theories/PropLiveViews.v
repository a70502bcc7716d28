(** C107: the views of a live database are read as they are. *)
From Verif Require Import GoStr GoStrFacts SpecCsv ModelCatalog ModelWipe ModelIntrospect ModelViews SpecLive IntrospectDb SpecGo ModelStructs SpecStructs SpecViews PropViews ModelLiveViews SpecLiveViews LiveViewFacts.

(** The views that are wanted are read, each once and in its schema, with their columns, types, comments and
    texts. *)
Definition C107_claim (d : dialect) (kinds : list bytes) (f : choice) (db : views_db) : Prop :=
  exists cat, write_views d kinds f db = Ok cat /\ views_read d f db cat.
Definition C107_full : Prop := forall d kinds f db, views_db_ok d db -> asked_views kinds -> C107_claim d kinds f db.

(** It holds for [clear_views].  Missing: views of Postgres whose names need quotes or which have comments or no
    columns, names and types with bars, views of MySQL with many columns, broken views of SQLite, encrypted
    views of SQL Server, names like those of the system, lists of names both to be included and excluded. *)
Theorem C107_partial : forall d kinds f db, views_db_ok d db -> asked_views kinds -> clear_views d f db -> C107_claim d kinds f db.
Proof. intros d kinds f db OK A CL. exact (write_views_ok d f db OK CL kinds A). Qed.

(** Together with C97: the Go code that is written for the views of the database declares all wanted views with
    their columns, if the names of the views and columns can be those of Go. *)
Theorem C107_structs : forall d kinds f db cur, views_db_ok d db -> asked_views kinds -> clear_views d f db ->
  exists cat, write_views d kinds f db = Ok cat /\
    let views := map (fun p => map fv_view (snd p)) cat in
    (forall s x, In x (wanted_views d f db s) -> exists v, In v (concat views) /\ vw_schema v = s /\ vw_name v = lw_name x /\ vw_columns v = map lc_name (lw_columns x))
    /\ (presentable (concat views) -> Forall (fun v => Forall simple (vw_columns v)) (concat views) ->
        forall l, read_views d cur views = Ok l -> declares cur (views_text l) (concat views)).
Proof.
  intros d kinds f db cur OK A CL. destruct (C107_partial d kinds f db OK A CL) as (cat & E & _ & _ & R). exists cat. split; [exact E|]. cbn zeta. split.
  - intros s x I. specialize (R s). apply In_nth_error in I as (i & I). assert (Y : exists v, nth_error (found_in cat s) i = Some v /\ as_it_is d s x v).
    { revert i I. induction R as [|a b la lb H F IH]; intros [|i] I; try discriminate; cbn in *; [injection I as <-; eauto|eauto]. }
    destruct Y as (v & Iv & (S & N & C & _)). exists (fv_view v). split; [|auto]. apply nth_error_In in Iv. apply in_flat_map in Iv as (p & Ip & Iv).
    apply in_concat. exists (map fv_view (snd p)). split; [apply in_map_iff; exists p; auto|]. apply in_map. destruct (beqb (fst p) s); [exact Iv|contradiction].
  - intros P S l. exact (C97_partial d cur _ l P S).
Qed.

(** ** All databases *)
(** Nothing is made up: a view that is read is one of the database, in its schema, not left out by the filter. *)
Theorem C107_sound : forall d kinds f db cat s v, views_db_ok d db -> write_views d kinds f db = Ok cat -> In v (found_in cat s) ->
  exists p x, In p (vd_schemas db) /\ fst p = s /\ In x (views_of (snd p)) /\ vw_name (fv_view v) = lw_name x
    /\ (fv_materialized v = true <-> lw_kind x = MaterializedView)
    /\ (f_tables f <> [] -> In (lw_name x) (f_tables f))
    /\ (f_tables f = [] -> lw_name x <> [] -> ~ In (lw_name x) (f_extables f)).
Proof.
  intros d kinds f db cat s v OK E I. destruct (found_from d kinds f db cat s v OK E I) as (p & x & y & Ip & Es & Ix & V & N & R & _).
  exists p, x. split; [exact Ip|]. split; [exact Es|]. unfold view_in_scope in V. apply andb_prop in V as [V S]. unfold in_scope in S. apply andb_prop in S as [_ S].
  split; [apply filter_In; split; [exact Ix|exact V]|]. split; [exact N|]. split; [|split].
  - destruct OK as (_ & _ & Hp). destruct (Hp p Ip) as (_ & _ & _ & Fx). rewrite Forall_forall in Fx. destruct (Fx x Ix) as (_ & _ & K & _).
    unfold view_row in R. destruct (lw_columns y); [discriminate|]. destruct (scan_text _ _); cbn [bindr] in R; try discriminate.
    destruct (aggregated d (map lc_name _)); cbn [bindr] in R; try discriminate. destruct (aggregated d (map (type_text d) _)); cbn [bindr] in R; try discriminate.
    injection R as <-. cbn [fv_materialized]. destruct d; destruct K as (K & _); destruct (lw_kind x); intuition discriminate.
  - intros Nt. unfold listed in S. destruct (f_tables f) as [|a l]; [contradiction|]. apply bmem_In in S. unfold some_names in S. apply filter_In in S as [S _]. exact S.
  - intros Nt Ne Ie. unfold listed in S. rewrite Nt in S. destruct (f_extables f) as [|a l]; [contradiction|]. apply Bool.negb_true_iff in S.
    assert (X : bmem (lw_name x) (some_names (a :: l)) = true); [|congruence]. apply bmem_In. unfold some_names. apply filter_In. split; [exact Ie|]. destruct (beqb_spec (lw_name x) []); [contradiction|reflexivity].
Qed.
(** No comment of a view of Postgres is ever read (unless the database is called pg_class). *)
Theorem C107_comments : forall kinds f db cat s v, views_db_ok Postgres db -> vd_name db <> B"pg_class" ->
  write_views Postgres kinds f db = Ok cat -> In v (found_in cat s) -> fv_comment v = [].
Proof.
  intros kinds f db cat s v OK Nn E I. destruct (found_from _ kinds f db cat s v OK E I) as (p & x & y & _ & _ & _ & _ & _ & R & _).
  unfold view_row in R. destruct (lw_columns y); [discriminate|]. destruct (scan_text _ _); cbn [bindr] in R; try discriminate. cbn [aggregated bindr] in R.
  injection R as <-. cbn [fv_comment]. unfold view_comment. destruct (beqb_spec (vd_name db) (B"pg_class")); [contradiction|reflexivity].
Qed.
(** A view of Postgres with a capital letter in its name, or in that of its schema, is not read if nothing has
    this name in lower case. *)
Theorem C107_capitals : forall kinds f db cat p x, views_db_ok Postgres db -> In p (vd_schemas db) -> In x (snd p) ->
  (forall q y, In q (vd_schemas db) -> In y (snd q) -> fst q = to_lower (fst p) -> lw_name y <> to_lower (lw_name x)) ->
  write_views Postgres kinds f db = Ok cat -> forall v, In v (found_in cat (fst p)) -> vw_name (fv_view v) <> lw_name x.
Proof.
  intros kinds f db cat p x OK Ip Ix H E v I N. destruct (found_from _ kinds f db cat (fst p) v OK E I) as (q & z & y & _ & _ & _ & _ & Nz & _ & _ & Rg).
  specialize (Rg eq_refl). rewrite <- Nz, N in Rg. unfold regclass in Rg.
  destruct (find _ (vd_schemas db)) as [r|] eqn:Er; [|discriminate]. apply find_some in Er as [Ir Er]. apply find_some in Rg as [Iy Ey]. apply beqb_eq in Er, Ey.
  exact (H r y Ir Iy Er Ey).
Qed.
(** In MySQL no more than 1024 bytes of column names are read. *)
Theorem C107_cut : forall kinds f db cat s v, views_db_ok MySQL db -> write_views MySQL kinds f db = Ok cat -> In v (found_in cat s) ->
  text_length (vw_columns (fv_view v)) <= 1024 /\ text_length (vw_types (fv_view v)) <= 1024.
Proof.
  intros kinds f db cat s v OK E I. destruct (found_from _ kinds f db cat s v OK E I) as (p & x & y & _ & _ & _ & _ & _ & R & _).
  assert (L : forall l t, aggregated MySQL l = Ok t -> List.length t <= 1024).
  { intros l t H. unfold aggregated in H. generalize dependent 1024. intros n H. assert (X : firstn n (join (B"|") l) = t) by congruence. rewrite <- X, firstn_length. lia. }
  unfold view_row in R. destruct (lw_columns y) as [|c l]; [discriminate|]. destruct (scan_text _ _); cbn [bindr] in R; try discriminate.
  destruct (aggregated MySQL (map lc_name _)) as [t1| |] eqn:E1; cbn [bindr] in R; try discriminate. destruct (aggregated MySQL (map (type_text MySQL) _)) as [t2| |] eqn:E2; cbn [bindr] in R; try discriminate.
  injection R as <-. cbn [fv_view vw_columns vw_types].
  assert (X : forall t, text_length (split_bars t) = List.length t).
  { intros t. rewrite text_length_join. unfold split_bars. destruct t as [|b t]; [reflexivity|]. change (B"|") with ["|"%char]. rewrite join_split_byte. reflexivity. }
  rewrite !X. split; [exact (L _ _ E1)|exact (L _ _ E2)].
Qed.

(** ** Nothing is read at all *)
Lemma in_scope_wanted d f (p : bytes * list live_relation) x : d <> Other -> clear_views_choice d f -> named (lw_name x) -> clear_names d (fst p) (lw_name x) -> is_view x = true -> wanted d f (fst p) (lw_name x) = true ->
  view_in_scope d f (fst p) x = true.
Proof.
  intros O (C1 & C2) Nx Cn V W. unfold view_in_scope. rewrite V. cbn [andb]. unfold in_scope. unfold wanted in W. rewrite not_system by assumption.
  destruct d; try congruence; try (rewrite !listed_chosen by (try apply C1; try exact C2; discriminate); exact W).
  rewrite (listed_named (f_tables f) (f_extables f)); [exact W|exact C2|]. intros _. exact Nx.
Qed.
(** A wanted view that cannot be used any more (SQLite), is encrypted or has too many columns (SQL Server), or has
    a blank or a dot in its name or that of its schema (Postgres). *)
Definition unusable (d : dialect) (s : bytes) (x : live_relation) : Prop :=
  match d with
  | SQLite => lw_broken x = true
  | SQLServer => lw_text x = None \/ 4000 < text_length (map lc_name (lw_columns x)) \/ 4000 < text_length (map lc_type (lw_columns x))
  | Postgres => exists c, (In c (lw_name x) \/ In c s) /\ (c = "."%char \/ blank c)
  | _ => False
  end.
Theorem C107_fails : forall d kinds f db p x, views_db_ok d db -> asked_views kinds -> clear_views_choice d f ->
  In p (vd_schemas db) -> In x (views_of (snd p)) -> clear_names d (fst p) (lw_name x) -> wanted d f (fst p) (lw_name x) = true ->
  unusable d (fst p) x -> forall cat, write_views d kinds f db <> Ok cat.
Proof.
  intros d kinds f db p x OK A C Ip Ix Cn W U. apply filter_In in Ix as [Ix V]. pose proof OK as (O & _ & Hp). destruct (Hp p Ip) as (_ & _ & _ & Fx). rewrite Forall_forall in Fx.
  destruct (Fx x Ix) as (Nx & _ & K & _). apply (unreadable d kinds f db p x A Ip Ix); [apply in_scope_wanted; assumption|].
  intros l. unfold read_relation, view_row. destruct d; cbn [unusable] in U; try contradiction.
  - rewrite U. discriminate.
  - assert (B1 : forall c n, In c n -> c = "."%char \/ blank c -> reg_bad n = true).
    { intros c n Ic U'. unfold reg_bad. destruct n as [|a n]; [contradiction|].
      apply orb_true_iff. right. apply existsb_exists. exists c. split; [exact Ic|]. destruct U' as [->|[->|U']]; [reflexivity|reflexivity|].
      replace ((9 <=? nat_of_ascii c) && (nat_of_ascii c <=? 13)) with true; [rewrite orb_true_r; reflexivity|]. symmetry. apply andb_true_iff. split; apply Nat.leb_le; lia. }
    destruct U as (c & [Ic|Ic] & U); rewrite (B1 c _ Ic U); [rewrite orb_true_r|]; discriminate.
  - destruct K as (_ & _ & K & _). destruct (lw_columns x) as [|c r] eqn:Ec; [contradiction|]. rewrite <- Ec in *. destruct (lw_text x) as [t|] eqn:Et; [|discriminate]. cbn [scan_text bindr].
    unfold aggregated. rewrite !text_length_join in U. change (map (type_text SQLServer) (lw_columns x)) with (map lc_type (lw_columns x)).
    destruct U as [U|[U|U]]; [discriminate| |]; apply Nat.ltb_lt in U.
    + rewrite U. discriminate.
    + destruct (4000 <? List.length (join (B"|") (map lc_name (lw_columns x)))); cbn [bindr]; [discriminate|]. rewrite U. discriminate.
Qed.

(** A list of names in which all are empty (except in SQLite), or an unknown dialect. *)
Theorem C107_errors : forall d kinds f db cat, asked_views kinds ->
  d = Other \/ (d <> SQLite /\ f_tables f <> [] /\ Forall (fun n => n = []) (f_tables f)) -> write_views d kinds f db <> Ok cat.
Proof.
  intros d kinds f db cat A H E. unfold write_views in E. replace (match kinds with [] => true | l => bmem (B"VIEWS") l end) with true in E.
  2:{ destruct A as [->|A]; [reflexivity|]. destruct kinds; [reflexivity|]. symmetry. apply bmem_In, A. }
  destruct H as [->|(Nd & Ne & F)]; [discriminate|]. unfold get_views in E. replace (bad_filter d f) with true in E; [destruct d; discriminate|].
  unfold bad_filter. replace (bad_list (f_tables f) (f_extables f)) with true; [destruct d; try contradiction; rewrite orb_true_r; reflexivity|].
  unfold bad_list. destruct (f_tables f) as [|a l]; [contradiction|]. replace (some_names (a :: l)) with (@nil bytes); [reflexivity|].
  clear - F. symmetry. unfold some_names. induction F as [|n r -> F IH]; [reflexivity|exact IH].
Qed.
(** Without being asked for views nothing is read. *)
Theorem C107_not_asked : forall d kinds f db, ~ asked_views kinds -> write_views d kinds f db = Ok [].
Proof.
  intros d kinds f db N. unfold write_views. destruct kinds as [|k l]; [contradiction N; left; reflexivity|]. destruct (bmem (B"VIEWS") (k :: l)) eqn:E; [|reflexivity].
  contradiction N. right. apply bmem_In, E.
Qed.

(** ** Views that are read wrongly *)
Definition all_views : choice := Choice false [] [] [] [].
Definition col (n t : bytes) : live_column := LiveColumn n t false.
Definition plain (n t : bytes) (l : list live_column) : live_relation := LiveRelation n PlainView (Some t) l [] false.
Definition pg_db (l : list live_relation) : views_db := ViewsDb (B"db") [(B"public", l)].
Definition my_db (l : list live_relation) : views_db := ViewsDb (B"db") [(B"db", l)].
Ltac solve_relation :=
  split; [discriminate|]; split; [vm_compute; repeat constructor; discriminate|]; split; [|discriminate];
  first [split; discriminate | split; intros; discriminate || reflexivity | split; [discriminate|]; split; [reflexivity|]; split; [discriminate|]; vm_compute; repeat constructor].
Ltac solve_db :=
  split; [discriminate|]; split; [repeat constructor; cbn; intuition discriminate|]; intros p [<-|[]]; split; [discriminate|]; split; [discriminate|];
  split; [repeat constructor; cbn; intuition discriminate|]; cbn [snd]; repeat (apply Forall_cons; [solve_relation|]); apply Forall_nil.

(** A view takes over the columns and the text of another one whose name differs in case only. *)
Definition namesakes : list live_relation := [plain (B"Users") (B"SELECT 1 AS one") [col (B"one") (B"integer")]; plain (B"users") (B"SELECT 'x' AS t") [col (B"t") (B"text")]].
Theorem C107_namesake : views_db_ok Postgres (pg_db namesakes) /\
  write_views Postgres [] all_views (pg_db namesakes) =
    Ok [(B"public", [FoundView (View (B"public") (B"Users") [B"t"] [B"TEXT"] []) false (B"SELECT 'x' AS t") [];
                     FoundView (View (B"public") (B"users") [B"t"] [B"TEXT"] []) false (B"SELECT 'x' AS t") []])].
Proof. split; [solve_db|vm_compute; reflexivity]. Qed.
(** Without the other one the view is left out, without an error. *)
Theorem C107_lost : views_db_ok Postgres (pg_db (firstn 1 namesakes)) /\ write_views Postgres [] all_views (pg_db (firstn 1 namesakes)) = Ok [].
Proof. split; [solve_db|vm_compute; reflexivity]. Qed.
(** The text of a view of MySQL that may not be seen is taken to be empty. *)
Definition unseen : live_relation := LiveRelation (B"v") PlainView None [col (B"a") (B"int")] [] false.
Theorem C107_unseen : views_db_ok MySQL (my_db [unseen]) /\
  write_views MySQL [] all_views (my_db [unseen]) = Ok [(B"db", [FoundView (View (B"db") (B"v") [B"a"] [B"int"] []) false [] []])].
Proof. split; [solve_db|vm_compute; reflexivity]. Qed.
(** A column whose name has a bar becomes two; an enum of MySQL with a bar in a label shifts the types. *)
Definition barred : live_relation := plain (B"v") (B"select 1") [col (B"a|b") (B"enum('x|y')"); col (B"c") (B"int")].
Theorem C107_bars : views_db_ok MySQL (my_db [barred]) /\
  write_views MySQL [] all_views (my_db [barred]) =
    Ok [(B"db", [FoundView (View (B"db") (B"v") [B"a"; B"b"; B"c"] [B"enum('x"; B"y')"; B"int"] []) false (B"select 1") []])].
Proof. split; [solve_db|vm_compute; reflexivity]. Qed.
(** The last columns of a wide view of MySQL are lost. *)
Definition long_name (i : nat) : bytes := repeat "c"%char 60 ++ [ascii_of_nat (65 + i)].
Definition wide : live_relation := plain (B"v") (B"select 1") (map (fun i => col (long_name i) (B"int")) (seq 0 20)).
Theorem C107_wide : views_db_ok MySQL (my_db [wide]) /\
  exists v, write_views MySQL [] all_views (my_db [wide]) = Ok [(B"db", [v])]
    /\ List.length (lw_columns wide) = 20 /\ List.length (vw_columns (fv_view v)) = 17 /\ List.length (vw_types (fv_view v)) = 20.
Proof. split; [solve_db|]. eexists. split; [vm_compute; reflexivity|]. vm_compute. auto. Qed.
(** A view of Postgres without columns is lost. *)
Definition bare : live_relation := plain (B"v") (B"SELECT") [].
Theorem C107_bare : views_db_ok Postgres (pg_db [bare]) /\ write_views Postgres [] all_views (pg_db [bare]) = Ok [].
Proof. split; [solve_db|vm_compute; reflexivity]. Qed.

Theorem C107_refuted : ~ C107_full.
Proof.
  intros H. destruct (H MySQL [] all_views (my_db [barred]) (proj1 C107_bars) (or_introl eq_refl)) as (cat & E & _ & _ & R).
  rewrite (proj2 C107_bars) in E. injection E as <-. specialize (R (B"db")). vm_compute in R. inversion R as [|? ? ? ? X]; subst. destruct X as (_ & _ & X & _). discriminate X.
Qed.

(** ** A database that is read as it is *)
Definition shop : views_db :=
  ViewsDb (B"shop") [
    (B"public", [LiveRelation (B"orders") NotAView None [col (B"id") (B"integer")] [] false;
                 LiveRelation (B"open_orders") PlainView (Some (B"SELECT id, state, NULL AS x FROM orders"))
                   [col (B"id") (B"integer"); LiveColumn (B"state") (B"order_state") true; col (B"x") (B"text")] [] false;
                 LiveRelation (B"totals") MaterializedView (Some (B"SELECT count(*) AS n FROM orders")) [col (B"n") (B"bigint")] [] false]);
    (B"pg_catalog", [plain (B"pg_views") (B"SELECT 1") [col (B"one") (B"integer")]])].
Ltac each_char := let c := fresh in let I := fresh in intros c I; cbn in I; repeat (destruct I as [<-|I]; [vm_compute; intuition (discriminate || lia)|]); contradiction.
Example C107_shop : views_db_ok Postgres shop /\ clear_views Postgres all_views shop
  /\ map lw_name (wanted_views Postgres all_views shop (B"public")) = [B"open_orders"; B"totals"]
  /\ write_views Postgres [B"VIEWS"] all_views shop =
       Ok [(B"public", [FoundView (View (B"public") (B"open_orders") [B"id"; B"state"; B"x"] [B"INTEGER"; B"ORDER_STATE"; B"TEXT"] [B"state"]) false (B"SELECT id, state, NULL AS x FROM orders") [];
                        FoundView (View (B"public") (B"totals") [B"n"] [B"BIGINT"] []) true (B"SELECT count(*) AS n FROM orders") []])].
Proof.
  split; [|split; [|split; vm_compute; reflexivity]].
  - split; [discriminate|]. split; [repeat constructor; cbn; intuition discriminate|]. intros p [<-|[<-|[]]]; (split; [discriminate|]; split; [discriminate|];
      split; [repeat constructor; cbn; intuition discriminate|]; cbn [snd]; repeat (apply Forall_cons; [solve_relation|]); apply Forall_nil).
  - split; [|split].
    + split; [intros _|cbn]; (split; [left; reflexivity|]; split; intros []).
    + intros p x [<-|[<-|[]]] I; cbn in I; repeat (destruct I as [<-|I]; [vm_compute; intros Z; (discriminate Z || (right; reflexivity))|]); contradiction.
    + intros s x I. apply wanted_at in I as (p & Ip & <- & Ix & V & W).
      assert (X : x = plain (B"pg_views") (B"SELECT 1") [col (B"one") (B"integer")] /\ fst p = B"pg_catalog" \/ fst p = B"public" /\ In x (snd (hd (B"", []) (vd_schemas shop)))).
      { destruct Ip as [<-|[<-|[]]]; [right; split; [reflexivity|exact Ix]|left]. destruct Ix as [<-|[]]. split; reflexivity. }
      destruct X as [[-> E]|[E X]]; rewrite E in *; [vm_compute in W; discriminate W|].
      assert (F : folded (B"public")) by (split; [each_char|discriminate]).
      destruct X as [<-|[<-|[<-|[]]]]; [discriminate V| |].
      * split; [intros _; split; [exact F|]; split; [split; [each_char|discriminate]|left; reflexivity]|].
        split; [discriminate|]. split; [discriminate|]. split; [discriminate|]. split; [cbn [lw_columns]; repeat (apply Forall_cons; [split; vm_compute; intuition discriminate|]); apply Forall_nil|]. split; exact Logic.I.
      * split; [intros _; split; [exact F|]; split; [split; [each_char|discriminate]|left; reflexivity]|].
        split; [discriminate|]. split; [discriminate|]. split; [discriminate|]. split; [cbn [lw_columns]; repeat (apply Forall_cons; [split; vm_compute; intuition discriminate|]); apply Forall_nil|]. split; exact Logic.I.
Qed.

Print Assumptions C107_partial.
Print Assumptions C107_structs.
Print Assumptions C107_sound.
Print Assumptions C107_comments.
Print Assumptions C107_capitals.
Print Assumptions C107_cut.
Print Assumptions C107_fails.
Print Assumptions C107_errors.
Print Assumptions C107_not_asked.
Print Assumptions C107_namesake.
Print Assumptions C107_lost.
Print Assumptions C107_unseen.
Print Assumptions C107_bars.
Print Assumptions C107_wide.
Print Assumptions C107_bare.
Print Assumptions C107_refuted.
