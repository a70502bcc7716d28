(** C108: the triggers of a live database are read and come to their tables and views. *)
From Verif Require Import GoStr GoStrFacts SpecCsv ModelCatalog ModelWipe ModelTriggers ModelIntrospect SpecLive IntrospectDb ExtrasFacts ModelLiveTriggers SpecLiveTriggers LiveTriggerFacts.

(** Each table and view of the catalog gets its triggers, in their order, with their names, texts and comments. *)
Definition C108_claim (d : dialect) (f : wide_choice) (db : triggers_db) (cat : list hall) : Prop :=
  exists cat', write_triggers d f db None cat = Ok cat' /\ triggers_read d db cat cat'.
Definition C108_full : Prop := forall d f db cat, triggers_db_ok d db -> catalog_of db cat -> wanted_only d f cat -> C108_claim d f db cat.

(** It holds for [clear_triggers].  Missing: triggers of views in SQLite and those whose table was named in other
    letters, encrypted triggers of SQL Server, lists of tables that leave out views and the other way round,
    comments of other objects in Postgres, names like those of the system, lists of names both to be included
    and excluded. *)
Theorem C108_partial : forall d f db cat, triggers_db_ok d db -> catalog_of db cat -> wanted_only d f cat -> clear_triggers d f db cat -> C108_claim d f db cat.
Proof. intros d f db cat OK CO WO CL. exact (write_triggers_ok d f db cat OK CO WO CL). Qed.

(** ** All databases *)
(** Nothing is made up: a trigger that a table or view gets is one of the database that belongs to it, not one of
    a constraint, and has its text. *)
Theorem C108_sound : forall d f db failed cat cat' h y v x, triggers_db_ok d db -> catalog_of db cat -> write_triggers d f db failed cat = Ok cat' ->
  In h cat' -> In y (if v : bool then ha_views h else ha_tables h) -> In x (snd y) ->
  exists p o t, In p db /\ In o (snd p) /\ In t (ow_triggers o) /\ fst p = ha_name h
    /\ match d with SQLite => lt_on t = fst y /\ to_lower (ow_name o) = to_lower (fst y) | _ => ow_name o = fst y /\ ow_view o = v end
    /\ ft_name x = lt_name t /\ lt_internal t = false
    /\ exists q, lt_sql t = Some q /\ lf_of (match d with SQLite | Postgres => q ++ B";" | _ => q end) (ft_sql x).
Proof.
  intros d f db failed cat cat' h y v x OK CO E Ih Iy Ix. destruct (attached_from d f db failed cat cat' h y v x CO E Ih Iy Ix) as (p & o & t & Ip & Io & It & _ & R & Es & Et & Ev).
  exists p, o, t. destruct (row_is d (fst p) o t x R) as (Rs & Rt & Rn & Rv & Rq & Rp & _). destruct OK as (O & _ & Hp). destruct (Hp p Ip) as (Sq & _ & _ & Ho). destruct (Ho o Io) as (_ & _ & Ft).
  rewrite Forall_forall in Ft. destruct (Ft t It) as (Np & Ns & Lo & My).
  split; [exact Ip|]. split; [exact Io|]. split; [exact It|]. split; [|split; [|split; [exact Rn|split]]].
  - rewrite <- Es, Rs. destruct d; try reflexivity. apply Sq. reflexivity.
  - rewrite <- Et, Rt, <- Ev, Rv. destruct d; try congruence; cbn; try (split; reflexivity).
    + split; [reflexivity|symmetry; apply Lo; reflexivity].
    + split; [reflexivity|]. apply My. reflexivity.
  - destruct (dialect_eq_dec d Postgres) as [->|Nd]; [apply Rp; reflexivity|apply Np, Nd].
  - apply Rq. destruct (dialect_eq_dec d SQLServer) as [->|Nd]; [|apply Ns, Nd]. intros Z. unfold trigger_rows in R. rewrite Z in R. destruct R as [R|[]]. discriminate.
Qed.
(** Views of SQLite never get triggers. *)
Theorem C108_sqlite_views : forall f db failed cat cat', write_triggers SQLite f db failed cat = Ok cat' -> map ha_views cat' = map ha_views cat.
Proof.
  intros f db failed cat cat' E. unfold write_triggers in E. destruct (get_live_triggers SQLite f db failed) as [rows| |] eqn:G; cbn [bindr] in E; try discriminate. injection E as <-.
  unfold get_live_triggers in G. destruct (bad_triggers_filter _ _); [discriminate|]. apply oks_from in G.
  assert (V : Forall (fun r => ft_view r = false) rows).
  { rewrite Forall_forall. intros r I. destruct (row_from SQLite f db failed rows r (eq_sym G) I) as (p & o & t & _ & _ & _ & _ & R). destruct (row_is _ _ _ _ _ R) as (_ & _ & _ & V & _). exact V. }
  clear G. revert cat. induction V as [|r rows V F IH]; intros cat; [reflexivity|]. cbn [fold_left]. rewrite IH. clear - V. induction cat as [|h cat IH]; [reflexivity|]. cbn [attach_trigger]. rewrite V.
  destruct (beqb _ _); [reflexivity|]. cbn [map]. rewrite IH. reflexivity.
Qed.
(** With a list of tables, a view that is not in it gets no triggers even though it was wanted; in SQL Server a table
    that is not in a list of views gets none, either. *)
Theorem C108_both_lists : forall d f db failed cat cat' h y v, catalog_of db cat -> write_triggers d f db failed cat = Ok cat' ->
  In h cat' -> In y (if v : bool then ha_views h else ha_tables h) ->
  (f_tables (w_choice f) <> [] /\ ~ In (fst y) (f_tables (w_choice f))) \/ (d = SQLServer /\ w_views f <> [] /\ ~ In (fst y) (w_views f)) ->
  snd y = [].
Proof.
  intros d f db failed cat cat' h y v CO E Ih Iy H. destruct (snd y) as [|x l] eqn:Ey; [reflexivity|]. exfalso.
  destruct (attached_from d f db failed cat cat' h y v x CO E Ih Iy) as (p & o & t & Ip & Io & It & S & R & Es & Et & Ev); [rewrite Ey; left; reflexivity|].
  destruct (row_is d (fst p) o t x R) as (_ & Rt & _). rewrite Rt in Et. rewrite Et in S. unfold trigger_in_scope in S. apply andb_prop in S as [S1 S2]. unfold in_scope in S1. apply andb_prop in S1 as [_ S1].
  assert (L : forall a b, a <> [] -> listed a b (fst y) = true -> In (fst y) a).
  { intros a b Na La. unfold listed in La. destruct a as [|c a]; [contradiction|]. apply bmem_In in La. unfold some_names in La. apply filter_In in La as [La _]. exact La. }
  destruct H as [[Ne Ni]|(-> & Ne & Ni)]; apply Ni.
  - exact (L _ _ Ne S1).
  - exact (L _ _ Ne S2).
Qed.
(** A connection that breaks down while the triggers are read is not noticed: what was read so far is all there is. *)
Theorem C108_broken_off : forall d f db n cat cat', write_triggers d f db None cat = Ok cat' ->
  exists rows, cat' = fold_left attach_trigger rows cat /\ write_triggers d f db (Some n) cat = Ok (fold_left attach_trigger (firstn n rows) cat).
Proof.
  intros d f db n cat cat' E. unfold write_triggers in E. destruct (get_live_triggers d f db None) as [rows| |] eqn:G; cbn [bindr] in E; try discriminate. injection E as <-. exists rows. split; [reflexivity|].
  unfold write_triggers, get_live_triggers in *.
  assert (X : all_trigger_rows d f db = map Ok rows) by (destruct d; try discriminate; destruct (bad_triggers_filter _ _); try discriminate; apply oks_from, G).
  rewrite X. rewrite firstn_map, map_result_oks. destruct d; try discriminate; destruct (bad_triggers_filter _ _); try discriminate; reflexivity.
Qed.
(** A list of names in which all are empty is an error, except in SQLite; so is an unknown dialect. *)
Theorem C108_errors : forall d f db failed cat cat',
  d = Other \/ (d <> SQLite /\ exists l, l <> [] /\ Forall (fun n => n = []) l /\
    (l = f_tables (w_choice f) \/ l = f_schemas (w_choice f) \/ (f_tables (w_choice f) = [] /\ l = f_extables (w_choice f))
     \/ (f_schemas (w_choice f) = [] /\ l = f_exschemas (w_choice f)) \/ (d = SQLServer /\ l = w_views f))) ->
  write_triggers d f db failed cat <> Ok cat'.
Proof.
  intros d f db failed cat cat' H E. unfold write_triggers, get_live_triggers in E. destruct H as [->|(Nd & l & Nl & F & H)]; [discriminate|].
  assert (Z : some_names l = []).
  { clear - F. unfold some_names. induction F as [|n r -> F IH]; [reflexivity|exact IH]. }
  assert (B1 : forall ex, bad_list l ex = true) by (intros ex; unfold bad_list; destruct l; [contradiction|rewrite Z; reflexivity]).
  assert (B2 : bad_list [] l = true) by (unfold bad_list; destruct l; [contradiction|rewrite Z; reflexivity]).
  replace (bad_triggers_filter d f) with true in E; [destruct d; discriminate|]. symmetry. unfold bad_triggers_filter, bad_filter. apply orb_true_iff.
  destruct H as [H|[H|[(H0 & H)|[(H0 & H)|(-> & H)]]]]; [left|left|left|left|right; rewrite <- H; apply B1];
    (destruct d; try contradiction; apply orb_true_iff; try rewrite H0; try rewrite <- H; (left; (apply B1 || apply B2)) || (right; (apply B1 || apply B2))).
Qed.
Example C108_errors_case : forall db failed cat cat', write_triggers MySQL (WideChoice (Choice false [] [] [[]; []] []) [] []) db failed cat <> Ok cat'.
Proof. intros. apply C108_errors. right. split; [discriminate|]. exists [[]; []]. split; [discriminate|]. split; [repeat constructor|left; reflexivity]. Qed.
(** One encrypted trigger, and SQL Server cannot be read at all. *)
Theorem C108_encrypted : forall f db cat p o t, In p db -> In o (snd p) -> In t (ow_triggers o) -> lt_sql t = None ->
  trigger_in_scope SQLServer f (fst p) (ow_name o) = true -> forall cat', write_triggers SQLServer f db None cat <> Ok cat'.
Proof.
  intros f db cat p o t Ip Io It Nt S cat' E. unfold write_triggers in E. destruct (get_live_triggers SQLServer f db None) as [rows| |] eqn:G; cbn [bindr] in E; try discriminate.
  unfold get_live_triggers in G. destruct (bad_triggers_filter _ _); [discriminate|]. apply oks_from in G.
  assert (I : In Err (all_trigger_rows SQLServer f db)).
  { unfold all_trigger_rows. apply in_flat_map. exists p. split; [exact Ip|]. apply in_flat_map. exists o. split; [exact Io|]. apply in_flat_map. exists t. split; [exact It|].
    cbn [scope_name]. rewrite S. unfold trigger_rows. rewrite Nt. left. reflexivity. }
  rewrite G in I. apply in_map_iff in I as (r & X & _). discriminate.
Qed.

(** ** Triggers that are not read, or read wrongly *)
Definition everything : wide_choice := WideChoice (Choice false [] [] [] []) [] [].
Definition trig (n o q : bytes) : live_trigger := LiveTrigger n o (Some q) [] [] false [] [].
Ltac solve_trigger := split; [intros; first [congruence|repeat split; reflexivity]|]; split; [intros; discriminate|]; split; [intros; first [discriminate|reflexivity]|intros; first [discriminate|reflexivity]].
Ltac solve_owner := split; [discriminate|]; split; [cbn; repeat constructor; cbn; intuition discriminate|]; cbn [ow_triggers]; repeat (apply Forall_cons; [solve_trigger|]); apply Forall_nil.
Ltac solve_page := split; [intros; first [discriminate|reflexivity]|]; split; [cbn; repeat constructor; cbn; intuition discriminate|]; split; [intros; first [discriminate|vm_compute; repeat constructor; cbn; intuition discriminate]|];
  let o := fresh in let I := fresh in intros o I; cbn [snd In] in I; repeat (destruct I as [<-|I]; [solve_owner|]); contradiction.
Ltac solve_triggers := split; [discriminate|]; split; [cbn; repeat constructor; cbn; intuition discriminate|]; let p := fresh in let I := fresh in intros p I; cbn [In] in I; repeat (destruct I as [<-|I]; [solve_page|]); contradiction.

(** A trigger of SQLite whose table was written in capitals when it was created is left out. *)
Definition capitals : triggers_db := [([], [Owner (B"orders") false [trig (B"log") (B"Orders") (B"CREATE TRIGGER log AFTER INSERT ON Orders BEGIN SELECT 1; END")]])].
Theorem C108_case : triggers_db_ok SQLite capitals /\ write_triggers SQLite everything capitals None [Hall [] [(B"orders", [])] []] = Ok [Hall [] [(B"orders", [])] []].
Proof. split; [solve_triggers|vm_compute; reflexivity]. Qed.
(** A trigger of Postgres gets the comment of another object that happens to have the same number. *)
Definition confused : triggers_db := [(B"public", [Owner (B"orders") false [LiveTrigger (B"log") (B"orders") (Some (B"CREATE TRIGGER log")) (B"keeps a log") [B"the default tablespace"] false [] []]])].
Theorem C108_stray : triggers_db_ok Postgres confused /\
  write_triggers Postgres everything confused None [Hall (B"public") [(B"orders", [])] []] =
    Ok [Hall (B"public") [(B"orders", [FoundTrigger (B"public") (B"orders") (B"log") false (B"CREATE TRIGGER log;") [] (B"the default tablespace")])] []].
Proof. split; [solve_triggers|vm_compute; reflexivity]. Qed.
(** Views are wanted as the list of tables has none of them; they are in the catalog, but without triggers. *)
Definition tables_only : wide_choice := WideChoice (Choice false [] [] [B"orders"] []) [] [].
Definition viewed : triggers_db := [(B"public", [Owner (B"orders") false []; Owner (B"open_orders") true [trig (B"put") (B"open_orders") (B"CREATE TRIGGER put")]])].
Definition both : list hall := [Hall (B"public") [(B"orders", [])] [(B"open_orders", [])]].
Theorem C108_view_lost : triggers_db_ok Postgres viewed /\ catalog_of viewed both /\ wanted_only Postgres tables_only both /\
  write_triggers Postgres tables_only viewed None both = Ok both.
Proof.
  split; [solve_triggers|]. split; [|split; [|vm_compute; reflexivity]].
  - split; [repeat constructor; intros []|]. intros h [<-|[]]. split; [repeat constructor; intros []|]. split; [repeat constructor; intros []|].
    split; intros x [<-|[]]; (split; [reflexivity|]); eexists; eexists; (split; [left; reflexivity|]; split; [reflexivity|]); [split; [left; reflexivity|]|split; [right; left; reflexivity|]]; split; reflexivity.
  - intros h [<-|[]]. split; intros x [<-|[]]; vm_compute; reflexivity.
Qed.
Theorem C108_refuted : ~ C108_full.
Proof.
  intros H. destruct C108_view_lost as (A & B & C & D). destruct (H Postgres tables_only viewed both A B C) as (cat' & E & _ & _ & R). rewrite D in E. injection E as <-.
  destruct (R _ (or_introl eq_refl)) as [_ R2]. specialize (R2 _ (or_introl eq_refl)). vm_compute in R2. inversion R2.
Qed.

(** ** A database that is read as it is *)
Definition store : triggers_db :=
  [(B"public", [Owner (B"orders") false [trig (B"log") (B"orders") (B"CREATE TRIGGER log");
                                         LiveTrigger (B"RI_ConstraintTrigger_1") (B"orders") (Some (B"")) [] [] true [] [];
                                         LiveTrigger (B"stamp") (B"orders") (Some (B"CREATE TRIGGER stamp")) (B"keeps the time") [] false [] []];
                Owner (B"open_orders") true [trig (B"put") (B"open_orders") (B"CREATE TRIGGER put")]]);
   (B"archive", [Owner (B"orders") false [trig (B"log") (B"orders") (B"CREATE TRIGGER log ON archive.orders")]])].
Definition store_cat : list hall := [Hall (B"archive") [(B"orders", [])] []; Hall (B"public") [(B"orders", [])] [(B"open_orders", [])]].
Example C108_store : triggers_db_ok Postgres store /\ catalog_of store store_cat /\ wanted_only Postgres everything store_cat /\ clear_triggers Postgres everything store store_cat
  /\ write_triggers Postgres everything store None store_cat =
       Ok [Hall (B"archive") [(B"orders", [FoundTrigger (B"archive") (B"orders") (B"log") false (B"CREATE TRIGGER log ON archive.orders;") [] []])] [];
           Hall (B"public") [(B"orders", [FoundTrigger (B"public") (B"orders") (B"log") false (B"CREATE TRIGGER log;") [] [];
                                          FoundTrigger (B"public") (B"orders") (B"stamp") false (B"CREATE TRIGGER stamp;") [] (B"keeps the time")])]
                            [(B"open_orders", [FoundTrigger (B"public") (B"open_orders") (B"put") true (B"CREATE TRIGGER put;") [] []])]].
Proof.
  split; [solve_triggers|]. split; [|split; [|split; [|vm_compute; reflexivity]]].
  - split; [repeat constructor; cbn; intuition discriminate|]. intros h [<-|[<-|[]]]; (split; [repeat constructor; intros []|]; split; [repeat constructor; intros []|]).
    + split; [|intros x []]. intros x [<-|[]]. split; [reflexivity|]. eexists. eexists. split; [right; left; reflexivity|]. split; [reflexivity|]. split; [left; reflexivity|]. split; reflexivity.
    + split; intros x [<-|[]]; (split; [reflexivity|]); eexists; eexists; (split; [left; reflexivity|]; split; [reflexivity|]); [split; [left; reflexivity|]|split; [right; left; reflexivity|]]; split; reflexivity.
  - intros h [<-|[<-|[]]]; (split; intros x I; cbn in I; repeat (destruct I as [<-|I]; [vm_compute; reflexivity|]); contradiction).
  - split; [|split].
    + split; [intros _|split; [cbn|discriminate]]; (split; [left; reflexivity|]; split; intros []).
    + intros p o [<-|[<-|[]]] I _ _; cbn in I; repeat (destruct I as [<-|I]; [|]); try contradiction;
        (split; [vm_compute; try discriminate; intuition discriminate|]; split; [vm_compute; reflexivity|]; split; [discriminate|]; split; [discriminate|]; intros t J; cbn in J; repeat (destruct J as [<-|J]; [reflexivity|]); contradiction).
    + intros p o t [<-|[<-|[]]] I J; cbn in I; repeat (destruct I as [<-|I]; [cbn in J; repeat (destruct J as [<-|J]; [discriminate|]); contradiction|]); contradiction.
Qed.

Print Assumptions C108_partial.
Print Assumptions C108_sound.
Print Assumptions C108_sqlite_views.
Print Assumptions C108_both_lists.
Print Assumptions C108_broken_off.
Print Assumptions C108_encrypted.
Print Assumptions C108_case.
Print Assumptions C108_stray.
Print Assumptions C108_view_lost.
Print Assumptions C108_refuted.
