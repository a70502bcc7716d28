(** Model of DatabaseIntrospector.WriteCatalog, database_introspector.go:133-145, for views, with GetViews
    (database_introspector.go:1400-1494) and the scripts it uses (introspection_scripts/*_views.sql).

    Simplified: the catalog is empty at first; indexes and triggers of views are left out; the rows of
    a query come in the order of the database; lengths are counted in bytes, texts are put into upper
    case as ASCII; names are compared as they are written; an error of a query is [Err]. *)
From Verif Require Import GoStr ModelCatalog ModelCache ModelDdl ModelWipe ModelTriggers ModelIntrospect ModelViews.

(** ** The database *)
(** A column has a name, a type and a flag that says whether the type is an enum. *)
Record live_column := LiveColumn { lc_name : bytes; lc_type : bytes; lc_enum : bool }.
Inductive relation_kind := PlainView | MaterializedView | NotAView.
(** A view or a table.  The text is that of the query (SQLite: of the whole statement), without one if it
    cannot be seen; a broken view is one that cannot be used any more, as a table it uses is gone. *)
Record live_relation := LiveRelation {
  lw_name : bytes; lw_kind : relation_kind; lw_text : option bytes; lw_columns : list live_column;
  lw_comment : bytes; lw_broken : bool
}.
Record views_db := ViewsDb { vd_name : bytes; vd_schemas : list (bytes * list live_relation) }.

(** ** The catalog *)
(** View, ddl.go:214-248. *)
Record found_view := FoundView { fv_view : view; fv_materialized : bool; fv_sql : bytes; fv_comment : bytes }.

(** ** The scripts *)
Definition is_view (x : live_relation) : bool := match lw_kind x with NotAView => false | _ => true end.
(** The conditions of the scripts are those of the scripts for tables, with Filter.Views and
    Filter.ExcludeViews in place of Filter.Tables and Filter.ExcludeTables; here [f_tables] and
    [f_extables] are the names of views. *)
Definition view_in_scope (d : dialect) (f : choice) (s : bytes) (x : live_relation) : bool :=
  is_view x && in_scope d f s (lw_name x).
(** to_regclass(schemaname || '.' || viewname), postgres_views.sql:5, 30 and the like; see [reg_bad]. *)
Definition regclass (db : views_db) (s n : bytes) : option live_relation :=
  match find (fun p => beqb (fst p) (to_lower s)) (vd_schemas db) with
  | Some p => find (fun x => beqb (lw_name x) (to_lower n)) (snd p)
  | None => None
  end.
(** COALESCE(obj_description(oid, current_database()), ''), postgres_views.sql:9: the second argument
    should be the catalog in which the view is, pg_class. *)
Definition view_comment (dbname comment : bytes) : bytes := if beqb dbname (B"pg_class") then comment else [].
(** UPPER(format_type(...)), postgres_views.sql:16. *)
Definition type_text (d : dialect) (c : live_column) : bytes := match d with Postgres => to_upper (lc_type c) | _ => lc_type c end.
(** group_concat is cut off at group_concat_max_len, which is 1024, mysql_views.sql:13-14; string_agg
    fails beyond 8000 bytes of two for a character, sqlserver_views.sql:15-16. *)
Definition aggregated (d : dialect) (l : list bytes) : result bytes :=
  let s := join (B"|") l in
  match d with
  | MySQL => Ok (firstn 1024 s)
  | SQLServer => if 4000 <? List.length s then Err else Ok s
  | _ => Ok s
  end.
(** database_introspector.go:1442-1447 and the like. *)
Definition split_bars (s : bytes) : list bytes := match s with [] => [] | _ => split_byte "|"%char s end.
(** database_introspector.go:1470-1477, postgres_views.sql:17. *)
Definition enum_flags (l : list live_column) : bytes := join (B"|") (map (fun c => if lc_enum c then B"true" else B"false") l).
Definition parse_true (s : bytes) : bool := one_of s ["1"; "t"; "T"; "TRUE"; "true"; "True"]%string.
Fixpoint enum_columns (flags cols : list bytes) : list bytes :=
  match flags, cols with
  | b :: flags', c :: cols' => (if parse_true b then [c] else []) ++ enum_columns flags' cols'
  | _, _ => []
  end.
(** A row, read: database_introspector.go:1434-1491.  A text that is NULL cannot be read into a string;
    MySQL has an empty text instead. *)
Definition scan_text (d : dialect) (t : option bytes) : result bytes :=
  match t with
  | Some s => Ok (match d with SQLite => s ++ B";" | _ => s end)
  | None => match d with MySQL => Ok [] | _ => Err end
  end.
(** [x] is the view in the list of views, [y] that whose text and columns are asked for. *)
Definition view_row (d : dialect) (db : views_db) (s : bytes) (x y : live_relation) : result (list found_view) :=
  match lw_columns y with
  | [] => Ok []
  | cols =>
      bindr (scan_text d (lw_text y)) (fun text =>
      bindr (aggregated d (map lc_name cols)) (fun names =>
      bindr (aggregated d (map (type_text d) cols)) (fun types =>
      Ok [FoundView
            (View s (lw_name x) (split_bars names) (split_bars types)
               (match d with Postgres => enum_columns (split_bars (enum_flags cols)) (split_bars names) | _ => [] end))
            (match d, lw_kind x with Postgres, MaterializedView => true | _, _ => false end)
            (unix_lines text)
            (match d with Postgres => view_comment (vd_name db) (lw_comment y) | _ => [] end)])))
  end.
(** pragma_table_xinfo fails for a broken view, sqlite_views.sql:24. *)
Definition read_relation (d : dialect) (db : views_db) (s : bytes) (x : live_relation) : result (list found_view) :=
  match d with
  | Postgres =>
      if reg_bad s || reg_bad (lw_name x) then Err
      else match regclass db s (lw_name x) with None => Ok [] | Some y => view_row d db s x y end
  | SQLite => if lw_broken x then Err else view_row d db s x x
  | _ => view_row d db s x x
  end.
Definition scope_rows (d : dialect) (f : choice) (db : views_db) : list (bytes * live_relation) :=
  flat_map (fun p => map (fun x => (fst p, x)) (filter (view_in_scope d f (fst p)) (snd p))) (vd_schemas db).
Definition get_views (d : dialect) (f : choice) (db : views_db) : result (list (bytes * found_view)) :=
  match d with
  | Other => Err
  | _ =>
      if bad_filter d f then Err
      else bindr (map_result (fun '(s, x) => bindr (read_relation d db s x) (fun l => Ok (map (fun v => (s, v)) l))) (scope_rows d f db))
             (fun ls => Ok (List.concat ls))
  end.

(** ** WriteCatalog *)
(** GetOrCreateSchema and AddOrUpdateView, catalog_cache.go:137-148, 366-377, for objects that are not to be
    ignored. *)
Notation shelf := (bytes * list found_view)%type.
Notation kept := (list shelf * kmap * kmap)%type.
Definition in_its_schema (s : bytes) (v : found_view) : found_view :=
  let w := fv_view v in
  FoundView (View s (vw_name w) (vw_columns w) (vw_types w) (vw_enums w)) (fv_materialized v) (fv_sql v) (fv_comment v).
Definition add_view (st : kept) (row : bytes * found_view) : result kept :=
  let '(shelves, ms, m) := st in let '(s, v) := row in
  bindr (get_or_create (fun _ => false) (s, []) shelves (ms [s])) (fun '(shelves, e, i) =>
    match nth_error shelves i with
    | None => Panic
    | Some p =>
        let v := in_its_schema (fst p) v in
        let k := [fst p; vw_name (fv_view v)] in
        bindr (add_or_update (fun _ => false) v (snd p) (m k)) (fun '(l, e') =>
          Ok (set_nth i (fst p, l) shelves, enter ms [s] e, enter m k e'))
    end).
(** database_introspector.go:56-62, 133-145; [kinds] is Filter.ObjectTypes. *)
Definition write_views (d : dialect) (kinds : list bytes) (f : choice) (db : views_db) : result (list shelf) :=
  if match kinds with [] => true | l => bmem (B"VIEWS") l end then
    bindr (get_views d f db) (fun rows =>
    bindr (each_row add_view ([], fun _ => None, fun _ => None) rows) (fun '(shelves, _, _) => Ok shelves))
  else Ok [].
