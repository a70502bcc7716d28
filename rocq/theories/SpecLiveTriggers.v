(** What reading the triggers of a live database should give. *)
From Verif Require Import GoStr SpecCsv ModelIntrospect SpecLive ModelLiveTriggers.

(** ** Databases and catalogs *)
(** SQLite has triggers without comments, and its names differ even without regard to case. *)
Definition trigger_ok (d : dialect) (o : owner) (t : live_trigger) : Prop :=
  (d <> Postgres -> lt_comment t = [] /\ lt_strays t = [] /\ lt_internal t = false)
  /\ (d <> SQLServer -> lt_sql t <> None)
  /\ (d = SQLite -> to_lower (lt_on t) = to_lower (ow_name o))
  /\ (d = MySQL -> ow_view o = false).
Definition triggers_db_ok (d : dialect) (db : triggers_db) : Prop :=
  d <> Other /\ NoDup (map fst db)
  /\ forall p, In p db ->
       (d = SQLite -> fst p = []) /\ NoDup (map ow_name (snd p))
       /\ (d = SQLite -> NoDup (map (fun o => to_lower (ow_name o)) (snd p)))
       /\ forall o, In o (snd p) -> named (ow_name o) /\ NoDup (map lt_name (ow_triggers o)) /\ Forall (trigger_ok d o) (ow_triggers o).
(** The catalog has tables and views of the database, each once, without triggers. *)
Definition found_owner (db : triggers_db) (s n : bytes) (v : bool) : Prop :=
  exists p o, In p db /\ fst p = s /\ In o (snd p) /\ ow_name o = n /\ ow_view o = v.
Definition catalog_of (db : triggers_db) (cat : list hall) : Prop :=
  NoDup (map ha_name cat)
  /\ forall h, In h cat ->
       NoDup (map fst (ha_tables h)) /\ NoDup (map fst (ha_views h))
       /\ (forall x, In x (ha_tables h) -> snd x = [] /\ found_owner db (ha_name h) (fst x) false)
       /\ (forall x, In x (ha_views h) -> snd x = [] /\ found_owner db (ha_name h) (fst x) true).
(** They are those that are wanted. *)
Definition view_choice (f : wide_choice) : choice :=
  Choice (f_system (w_choice f)) (f_schemas (w_choice f)) (f_exschemas (w_choice f)) (w_views f) (w_exviews f).
Definition wanted_only (d : dialect) (f : wide_choice) (cat : list hall) : Prop :=
  forall h, In h cat ->
    (forall x, In x (ha_tables h) -> wanted d (w_choice f) (ha_name h) (fst x) = true)
    /\ (forall x, In x (ha_views h) -> wanted d (view_choice f) (ha_name h) (fst x) = true).

(** ** The catalog afterwards *)
Definition attr_of (t : found_trigger) (k : bytes) : option bytes :=
  match find (fun p => beqb (fst p) k) (ft_attrs t) with Some p => Some (snd p) | None => None end.
(** The trigger as it is; in SQLite and Postgres with a semicolon at the end. *)
Definition same_trigger (d : dialect) (s n : bytes) (t : live_trigger) (x : found_trigger) : Prop :=
  ft_schema x = s /\ ft_table x = n /\ ft_name x = lt_name t
  /\ (exists q, lt_sql t = Some q /\ lf_of (match d with SQLite | Postgres => q ++ B";" | _ => q end) (ft_sql x))
  /\ ft_comment x = lt_comment t
  /\ (d = MySQL -> attr_of x (B"actionTiming") = Some (lt_timing t) /\ attr_of x (B"eventManipulation") = Some (lt_event t)).
(** The triggers of a table or view of the database, without those of constraints. *)
Definition owned (db : triggers_db) (s n : bytes) (v : bool) : list live_trigger :=
  flat_map (fun p => if beqb (fst p) s then
    flat_map (fun o => if beqb (ow_name o) n && Bool.eqb (ow_view o) v then filter (fun t => negb (lt_internal t)) (ow_triggers o) else []) (snd p) else []) db.
Definition triggers_read (d : dialect) (db : triggers_db) (cat cat' : list hall) : Prop :=
  map ha_name cat' = map ha_name cat
  /\ map (fun h => (map fst (ha_tables h), map fst (ha_views h))) cat' = map (fun h => (map fst (ha_tables h), map fst (ha_views h))) cat
  /\ forall h, In h cat' ->
       (forall x, In x (ha_tables h) -> Forall2 (same_trigger d (ha_name h) (fst x)) (owned db (ha_name h) (fst x) false) (snd x))
       /\ (forall x, In x (ha_views h) -> Forall2 (same_trigger d (ha_name h) (fst x)) (owned db (ha_name h) (fst x) true) (snd x)).

(** ** Databases whose triggers are read as they are *)
Definition clear_wide (d : dialect) (f : wide_choice) : Prop :=
  (d <> SQLite -> clear_list (f_schemas (w_choice f)) (f_exschemas (w_choice f)))
  /\ match d with SQLite => f_tables (w_choice f) = [] \/ f_extables (w_choice f) = [] | _ => clear_list (f_tables (w_choice f)) (f_extables (w_choice f)) end
  /\ (d = SQLServer -> clear_list (w_views f) (w_exviews f)).
(** The tables of the catalog with triggers are not left out by the lists of views and the other way round; in
    SQLite views have no triggers and triggers the right names. *)
Definition clear_owner (d : dialect) (f : wide_choice) (s : bytes) (o : owner) : Prop :=
  clear_names d s (ow_name o)
  /\ (ow_view o = true -> chosen (f_tables (w_choice f)) (f_extables (w_choice f)) (ow_name o) = true)
  /\ (d = SQLServer -> ow_view o = false -> chosen (w_views f) (w_exviews f) (ow_name o) = true)
  /\ (d = SQLite -> ow_view o = false /\ forall t, In t (ow_triggers o) -> lt_on t = ow_name o)
  /\ forall t, In t (ow_triggers o) -> lt_strays t = [].
Definition in_catalog (cat : list hall) (s : bytes) (o : owner) : Prop :=
  exists h x, In h cat /\ ha_name h = s /\ fst x = ow_name o /\ In x (if ow_view o then ha_views h else ha_tables h).
Definition clear_triggers (d : dialect) (f : wide_choice) (db : triggers_db) (cat : list hall) : Prop :=
  clear_wide d f
  /\ (forall p o, In p db -> In o (snd p) -> in_catalog cat (fst p) o -> ow_triggers o <> [] -> clear_owner d f (fst p) o)
  (* no text that is asked for is missing *)
  /\ (forall p o t, In p db -> In o (snd p) -> In t (ow_triggers o) -> lt_sql t <> None).
