(** Model of DatabaseIntrospector.WriteCatalog, database_introspector.go:46-131, for extensions, enums,
    domains and routines, with GetExtensions (932-951), GetEnums (900-925), GetDomains (838-890) and
    GetRoutines (1140-1232) and the scripts they use (introspection_scripts/postgres_extensions.sql,
    postgres_enums.sql, postgres_domains.sql, *_routines.sql).

    Simplified: the catalog is empty at first; objects do not repeat the name of their schema; the rows
    of a query come in the order of the database; JSON arrays are read as they were written; the
    versions are Postgres 11 to 16, where domains have no constraints for NOT NULL; an error of a
    query is [Err].  The flags for known lists (EnumsValid and the like) are left out. *)
From Verif Require Import GoStr ModelCatalog ModelCache ModelDdl ModelWipe ModelTriggers ModelIntrospect ModelDump.

(** ** The database *)
Record live_enum := LiveEnum { le_enum : enum; le_comment : bytes }.
(** The checks have a name, an expression and a flag that says whether they hold for existing values. *)
Record live_domain := LiveDomain {
  ld_name : bytes; ld_type : bytes; ld_collation : bytes; ld_notnull : bool; ld_default : bytes;
  ld_checks : list (bytes * bytes * bool); ld_comment : bytes
}.
(** [lr_args] are the identity arguments (Postgres); [lr_params] the parameters with mode, name and type
    (MySQL); a routine may have a definition that cannot be seen (encrypted in SQL Server, not permitted
    in MySQL); [lr_extension] says that it belongs to an extension; [lr_more] is the routine_body, the
    sql_data_access and the security_type. *)
Record live_routine := LiveRoutine {
  lr_name : bytes; lr_args : bytes; lr_kind : routine_kind; lr_params : list (bytes * bytes * bytes); lr_result : bytes;
  lr_sql : option bytes; lr_comment : bytes; lr_deterministic : bool; lr_more : bytes * bytes * bytes; lr_extension : bool
}.
Record home := Home { hm_name : bytes; hm_enums : list live_enum; hm_domains : list live_domain; hm_routines : list live_routine }.
Record live := Live { lv_dbname : bytes; lv_extensions : list bytes; lv_homes : list home }.

(** ** The catalog *)
(** Routine, ddl.go:184-211.  Attrs is a list of pairs. *)
Record routine := Routine {
  rt_name : bytes; rt_args : bytes; rt_type : bytes; rt_sql : bytes; rt_attrs : list (bytes * bytes); rt_comment : bytes
}.
(** Schema, ddl.go:72-127; enums and domains come with their comments. *)
Record place := Place {
  pl_name : bytes; pl_enums : list (enum * bytes); pl_domains : list (domain * bytes); pl_routines : list routine
}.
Definition with_enums (p : place) (l : list (enum * bytes)) : place := Place (pl_name p) l (pl_domains p) (pl_routines p).
Definition with_domains (p : place) (l : list (domain * bytes)) : place := Place (pl_name p) (pl_enums p) l (pl_routines p).
Definition with_routines (p : place) (l : list routine) : place := Place (pl_name p) (pl_enums p) (pl_domains p) l.

(** ** The scripts *)
(** Filter, database_introspector.go:1544-1622. *)
Record extra_choice := ExtraChoice {
  x_system : bool; x_kinds : list bytes; x_schemas : list bytes; x_exschemas : list bytes;
  x_enums : list bytes; x_exenums : list bytes; x_domains : list bytes; x_exdomains : list bytes;
  x_routines : list bytes; x_exroutines : list bytes; x_extensions : list bytes; x_exextensions : list bytes
}.
(** includeObjectType, database_introspector.go:56-62. *)
Definition included (f : extra_choice) (k : bytes) : bool := match x_kinds f with [] => true | l => bmem k l end.
Definition some_filter (l ex : list bytes) : bool := match l, ex with [], [] => false | _, _ => true end.
Definition schema_in_scope (d : dialect) (f : extra_choice) (s : bytes) : bool :=
  (x_system f || schema_listed d s) && listed (x_schemas f) (x_exschemas f) s.
Definition bad_schemas (f : extra_choice) : bool := bad_list (x_schemas f) (x_exschemas f).
(** COALESCE(obj_description(oid, current_database()), ''), postgres_enums.sql:5, postgres_domains.sql:10:
    the second argument should be the catalog in which the object is, pg_type. *)
Definition type_comment (dbname comment : bytes) : bytes := if beqb dbname (B"pg_type") then comment else [].
(** The rows with the names of their schemas. *)
Definition home_rows {A C} (db : live) (sel : home -> bool) (get : home -> list A) (rows : A -> list C) : list (bytes * C) :=
  flat_map (fun h => if sel h then flat_map (fun a => map (fun c => (hm_name h, c)) (rows a)) (get h) else []) (lv_homes db).

(** GetExtensions, database_introspector.go:932-951, postgres_extensions.sql. *)
Definition get_extensions (d : dialect) (f : extra_choice) (db : live) : result (list bytes) :=
  match d with
  | Postgres => if bad_list (x_extensions f) (x_exextensions f) then Err else Ok (filter (listed (x_extensions f) (x_exextensions f)) (lv_extensions db))
  | _ => Ok []
  end.
(** GetEnums, database_introspector.go:900-925, postgres_enums.sql: there is no table pg_typ (line 23); types
    without labels have no rows in pg_enum. *)
Definition enum_row (dbname : bytes) (e : live_enum) : list (enum * bytes) :=
  match en_labels (le_enum e) with [] => [] | _ => [(le_enum e, type_comment dbname (le_comment e))] end.
Definition get_enums (d : dialect) (f : extra_choice) (db : live) : result (list (bytes * (enum * bytes))) :=
  match d with
  | Postgres =>
      if bad_schemas f || some_filter (x_enums f) (x_exenums f) then Err
      else Ok (home_rows db (fun h => schema_in_scope d f (hm_name h)) hm_enums (enum_row (lv_dbname db)))
  | _ => Ok []
  end.
(** GetDomains, database_introspector.go:838-890, postgres_domains.sql: the word AND is missing (line 29);
    without constraints COALESCE turns NULL into '' (lines 8-9). *)
Definition domain_check_text (c : bytes * bytes * bool) : bytes :=
  let '(_, e, valid) := c in B"CHECK (" ++ e ++ B")" ++ (if valid then [] else B" NOT VALID").
Definition domain_row (dbname : bytes) (o : live_domain) : list (domain * bytes) :=
  let names := match ld_checks o with [] => [[]] | l => map (fun c => fst (fst c)) l end in
  let exprs := match ld_checks o with [] => [[]] | l => map domain_check_text l end in
  [(Domain (ld_name o) (ld_type o) (ld_collation o) (ld_notnull o) (ld_default o) names
      (map (fun e => trim_prefix e (B"CHECK ")) exprs), type_comment dbname (ld_comment o))].
Definition get_domains (d : dialect) (f : extra_choice) (db : live) : result (list (bytes * (domain * bytes))) :=
  match d with
  | Postgres =>
      if bad_schemas f || some_filter (x_domains f) (x_exdomains f) then Err
      else Ok (home_rows db (fun h => schema_in_scope d f (hm_name h)) hm_domains (domain_row (lv_dbname db)))
  | _ => Ok []
  end.

(** mysql_routines.sql:14-31: the parameters of all routines of that name, by their position; the result
    of a function is at position 0 and has no name. *)
Definition param_text (k : routine_kind) (p : bytes * bytes * bytes) : bytes :=
  let '(mode, n, t) := p in (match k with Function => [] | _ => mode ++ B" " end) ++ n ++ B" " ++ t.
Definition name_sakes (h : home) (n : bytes) : list live_routine := filter (fun r => beqb (lr_name r) n) (hm_routines h).
Definition joined_params (l : list live_routine) : list bytes :=
  let most := fold_right Nat.max 0 (map (fun r => List.length (lr_params r)) l) in
  flat_map (fun i => flat_map (fun r => match nth_error (lr_params r) i with Some p => [param_text (lr_kind r) p] | None => [] end) l) (seq 0 most).
(** NULL (without a named parameter) and a definition that is NULL cannot be read into a string,
    database_introspector.go:1196-1208, 1218-1223. *)
Definition mysql_params (h : home) (n : bytes) : option bytes :=
  match joined_params (name_sakes h n) with [] => None | l => Some (join (B"|") l) end.
Definition has_param_rows (h : home) (n : bytes) : bool :=
  existsb (fun r => match lr_kind r, lr_params r with Function, _ => true | _, _ :: _ => true | _, [] => false end) (name_sakes h n).
Definition routine_in_scope (d : dialect) (f : extra_choice) (h : home) (r : live_routine) : bool :=
  (x_system f || (schema_listed d (hm_name h) && match d with SQLServer => negb (like_any (B"sp") (to_lower (lr_name r))) | _ => true end))
  && listed (x_schemas f) (x_exschemas f) (hm_name h)
  && listed (x_routines f) (x_exroutines f) (lr_name r)
  && match d with Postgres => negb (lr_extension r) | MySQL => has_param_rows h (lr_name r) | _ => true end.
Definition flag_text (b : bool) : bytes := if b then B"true" else B"false".
(** A row, read: database_introspector.go:1170-1228.  pg_get_functiondef fails for an aggregate. *)
Definition read_routine (d : dialect) (h : home) (r : live_routine) : result routine :=
  match d, lr_kind r, lr_sql r with
  | Postgres, Aggregate, _ => Err
  | Postgres, k, Some s =>
      Ok (Routine (lr_name r) (lr_args r) (kind_text k) (unix_lines (s ++ B";")) [(B"returnType", lr_result r)] (lr_comment r))
  | MySQL, k, Some s =>
      match mysql_params h (lr_name r) with
      | None => Err
      | Some p =>
          let '(body, access, security) := lr_more r in
          Ok (Routine (lr_name r) [] (kind_text k) (unix_lines s)
            [(B"returnType", lr_result r); (B"parameters", p); (B"routineBody", body);
             (B"isDeterministic", flag_text (lr_deterministic r)); (B"sqlDataAccess", access); (B"securityType", security)]
            (lr_comment r))
      end
  | SQLServer, k, Some s =>
      Ok (Routine (lr_name r) [] (match k with Procedure => B"PROCEDURE" | _ => B"FUNCTION" end) (unix_lines s) [] [])
  | _, _, _ => Err
  end.
Definition routine_rows (d : dialect) (f : extra_choice) (db : live) : list (bytes * result routine) :=
  flat_map (fun h => map (fun r => (hm_name h, read_routine d h r)) (filter (routine_in_scope d f h) (hm_routines h))) (lv_homes db).
Definition get_routines (d : dialect) (f : extra_choice) (db : live) : result (list (bytes * routine)) :=
  match d with
  | SQLite => Ok []
  | Other => Err
  | _ =>
      if bad_schemas f || bad_list (x_routines f) (x_exroutines f) then Err
      else map_result (fun '(s, r) => bindr r (fun r => Ok (s, r))) (routine_rows d f db)
  end.

(** ** WriteCatalog *)
(** GetOrCreateSchema and AddOrUpdateEnum (AddOrUpdateDomain, AddOrUpdateRoutine), catalog_cache.go:137-148,
    202-212, 254-264, 316-326, for objects that are not to be ignored. *)
Definition held := (list place * kmap * kmap)%type.
Definition add_item {A} (get : place -> list A) (set : place -> list A -> place) (key_of : A -> key) (st : held) (row : bytes * A) : result held :=
  let '(places, ms, m) := st in let '(s, a) := row in
  bindr (get_or_create (fun _ => false) (Place s [] [] []) places (ms [s])) (fun '(places, e, i) =>
    match nth_error places i with
    | None => Panic
    | Some p =>
        let k := pl_name p :: key_of a in
        bindr (add_or_update (fun _ => false) a (get p) (m k)) (fun '(l, e') =>
          Ok (set_nth i (set p l) places, enter ms [s] e, enter m k e'))
    end).
Definition add_items {A} (get : place -> list A) (set : place -> list A -> place) (key_of : A -> key)
    (st : list place * kmap) (rows : list (bytes * A)) : result (list place * kmap) :=
  bindr (each_row (add_item get set key_of) (st, fun _ => None) rows) (fun '(st, _) => Ok st).
Definition when {A} (b : bool) (r : result (list A)) : result (list A) := if b then r else Ok [].
(** database_introspector.go:86-131. *)
Definition read_extras (d : dialect) (f : extra_choice) (db : live) : result (list bytes * list place) :=
  bindr (when (included f (B"EXTENSIONS")) (get_extensions d f db)) (fun exts =>
  bindr (when (included f (B"ENUMS")) (get_enums d f db)) (fun enums =>
  bindr (add_items pl_enums with_enums (fun e => [en_name (fst e)]) ([], fun _ => None) enums) (fun st =>
  bindr (when (included f (B"DOMAINS")) (get_domains d f db)) (fun domains =>
  bindr (add_items pl_domains with_domains (fun o => [dm_name (fst o)]) st domains) (fun st =>
  bindr (when (included f (B"ROUTINES")) (get_routines d f db)) (fun routines =>
  bindr (add_items pl_routines with_routines (fun r => [rt_name r; rt_args r]) st routines) (fun st =>
  Ok (exts, fst st)))))))).
