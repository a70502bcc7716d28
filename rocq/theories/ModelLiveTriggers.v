(** Model of DatabaseIntrospector.WriteCatalog, database_introspector.go:215-237, for triggers, with GetTriggers
    (database_introspector.go:1306-1389) and the scripts it uses (introspection_scripts/*_triggers.sql).

    Simplified: the tables and views are in the catalog already, without triggers, and not to be ignored;
    the caches are looked up by the names of the objects; the rows of a query come in the order of the
    database; names are compared as they are written; an error of a query is [Err]. *)
From Verif Require Import GoStr ModelCatalog ModelWipe ModelTriggers ModelIntrospect.

(** ** The database *)
(** A trigger.  [lt_on] is the name of its table or view as the statement that created it has it, which is what
    SQLite remembers; a text that cannot be seen is missing (encrypted in SQL Server); [lt_strays] are comments of
    other objects that have the same number (Postgres); internal triggers are those of constraints; the
    timing and the event are those of MySQL. *)
Record live_trigger := LiveTrigger {
  lt_name : bytes; lt_on : bytes; lt_sql : option bytes; lt_comment : bytes; lt_strays : list bytes; lt_internal : bool;
  lt_timing : bytes; lt_event : bytes
}.
Record owner := Owner { ow_name : bytes; ow_view : bool; ow_triggers : list live_trigger }.
Definition triggers_db := list (bytes * list owner).

(** ** The catalog *)
(** Trigger, ddl.go:539-564.  Attrs is a list of pairs. *)
Record found_trigger := FoundTrigger {
  ft_schema : bytes; ft_table : bytes; ft_name : bytes; ft_view : bool; ft_sql : bytes; ft_attrs : list (bytes * bytes); ft_comment : bytes
}.
(** A schema with its tables and its views, each with its triggers. *)
Record hall := Hall { ha_name : bytes; ha_tables : list (bytes * list found_trigger); ha_views : list (bytes * list found_trigger) }.

(** ** The scripts *)
(** Filter, database_introspector.go:1544-1622; [w_tables] has the names of tables. *)
Record wide_choice := WideChoice { w_choice : choice; w_views : list bytes; w_exviews : list bytes }.
(** sqlserver_triggers.sql:23-32: both lists are asked for. *)
Definition trigger_in_scope (d : dialect) (f : wide_choice) (s t : bytes) : bool :=
  in_scope d (w_choice f) s t && match d with SQLServer => listed (w_views f) (w_exviews f) t | _ => true end.
Definition bad_triggers_filter (d : dialect) (f : wide_choice) : bool :=
  bad_filter d (w_choice f) || match d with SQLServer => bad_list (w_views f) (w_exviews f) | _ => false end.
(** postgres_triggers.sql:12: pg_description is joined without regard to the catalog the object is in. *)
Definition descriptions (t : live_trigger) : list bytes :=
  match (match lt_comment t with [] => [] | c => [c] end) ++ lt_strays t with [] => [[]] | l => l end.
(** The rows for a trigger, read: database_introspector.go:1334-1386. *)
Definition trigger_rows (d : dialect) (s : bytes) (o : owner) (t : live_trigger) : list (result found_trigger) :=
  match d with
  | SQLite =>
      [match lt_sql t with
       | Some q => Ok (FoundTrigger [] (lt_on t) (lt_name t) false (unix_lines (q ++ B";")) [] [])
       | None => Err
       end]
  | Postgres =>
      if lt_internal t then []
      else map (fun c => Ok (FoundTrigger s (ow_name o) (lt_name t) (ow_view o)
                               (unix_lines (match lt_sql t with Some q => q ++ B";" | None => [] end)) [] c)) (descriptions t)
  | SQLServer =>
      [match lt_sql t with
       | Some q => Ok (FoundTrigger s (ow_name o) (lt_name t) (ow_view o) (unix_lines q) [] [])
       | None => Err
       end]
  | MySQL =>
      [match lt_sql t with
       | Some q => Ok (FoundTrigger s (ow_name o) (lt_name t) false (unix_lines q)
                         [(B"actionTiming", lt_timing t); (B"eventManipulation", lt_event t)] [])
       | None => Err
       end]
  | Other => []
  end.
(** The name by which a trigger is chosen. *)
Definition scope_name (d : dialect) (o : owner) (t : live_trigger) : bytes := match d with SQLite => lt_on t | _ => ow_name o end.
Definition all_trigger_rows (d : dialect) (f : wide_choice) (db : triggers_db) : list (result found_trigger) :=
  flat_map (fun p => flat_map (fun o => flat_map (fun t =>
    if trigger_in_scope d f (fst p) (scope_name d o t) then trigger_rows d (fst p) o t else []) (ow_triggers o)) (snd p)) db.
(** GetTriggers: [failed] says after how many rows the connection breaks down, if it does; rows.Err is not asked
    for, database_introspector.go:1388. *)
Definition get_live_triggers (d : dialect) (f : wide_choice) (db : triggers_db) (failed : option nat) : result (list found_trigger) :=
  match d with
  | Other => Err
  | _ =>
      if bad_triggers_filter d f then Err
      else map_result (fun r => r) (match failed with Some n => firstn n (all_trigger_rows d f db) | None => all_trigger_rows d f db end)
  end.

(** ** WriteCatalog *)
(** AddOrUpdateTrigger and AddOrUpdateViewTrigger, catalog_cache.go:651-662, 758-769. *)
Fixpoint put_trigger (l : list found_trigger) (t : found_trigger) : list found_trigger :=
  match l with
  | [] => [t]
  | u :: l' => if beqb (ft_name u) (ft_name t) then t :: l' else u :: put_trigger l' t
  end.
(** GetTable and GetView, catalog_cache.go:334-343, 385-394: without one nothing is done. *)
Fixpoint put_at (l : list (bytes * list found_trigger)) (n : bytes) (t : found_trigger) : list (bytes * list found_trigger) :=
  match l with
  | [] => []
  | p :: l' => if beqb (fst p) n then (fst p, put_trigger (snd p) t) :: l' else p :: put_at l' n t
  end.
(** GetSchema, catalog_cache.go:121-129. *)
Fixpoint attach_trigger (cat : list hall) (t : found_trigger) : list hall :=
  match cat with
  | [] => []
  | h :: cat' =>
      if beqb (ha_name h) (ft_schema t) then
        (if ft_view t then Hall (ha_name h) (ha_tables h) (put_at (ha_views h) (ft_table t) t)
         else Hall (ha_name h) (put_at (ha_tables h) (ft_table t) t) (ha_views h)) :: cat'
      else h :: attach_trigger cat' t
  end.
Definition write_triggers (d : dialect) (f : wide_choice) (db : triggers_db) (failed : option nat) (cat : list hall) : result (list hall) :=
  bindr (get_live_triggers d f db failed) (fun l => Ok (fold_left attach_trigger l cat)).
