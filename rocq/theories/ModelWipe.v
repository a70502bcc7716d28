(** Model of WipeCmd.Run, wipe_cmd.go:75-293, with the introspection scripts it uses
    (introspection_scripts/*_views.sql, *_constraints.sql, *_tables.sql, *_routines.sql,
    postgres_enums.sql, postgres_domains.sql, postgres_extensions.sql). *)
From Verif Require Import GoStr ModelSq ModelDdl ModelHistory ModelMigrate.

(** ** The contents of a database *)
Inductive routine_kind := Function | Procedure | Aggregate | WindowFunction.
Inductive obj :=
| OView (schema name : bytes) (materialized : bool)
| OFk (schema table name : bytes)
| OTable (schema name : bytes) (partitioned : bool)
| ORoutine (schema name args : bytes) (kind : routine_kind)
| OEnum (schema name : bytes)
| ODomain (schema name : bytes)
| OExt (name : bytes).

(** ** The introspection scripts *)
(** LIKE 'prefix_%': the underscore stands for any character. *)
Definition like_any (prefix s : bytes) : bool := has_prefix s prefix && (List.length prefix <? List.length s).
(** Schemas the scripts leave out: mysql_tables.sql:11 and the like in the other scripts of
    MySQL, postgres_tables.sql:12 and the like. *)
Definition schema_listed (d : dialect) (s : bytes) : bool :=
  match d with
  | Postgres => negb (beqb s (B"information_schema")) && negb (like_any (B"pg") s)
  | MySQL => negb (one_of s ["mysql"; "information_schema"; "performance_schema"; "sys"]%string)
  | _ => true
  end.
(** Names the scripts leave out: sqlite_tables.sql:11-15, sqlserver_tables.sql:11,
    sqlserver_routines.sql:14.  LIKE does not distinguish upper and lower case in SQLite and
    (with the usual collations) in SQL Server. *)
Definition relation_listed (d : dialect) (n : bytes) : bool :=
  match d with
  | SQLite => negb (like_any (B"sqlite") (to_lower n))
  | SQLServer => negb (like_any (B"spt") (to_lower n)) && negb (like_any (B"msreplication") (to_lower n))
  | _ => true
  end.
(** mysql_routines.sql:14-31 joins the parameters of the routines of that name, among which is the
    result of a function, which has no name. *)
Definition some_routine (l : list obj) (s n : bytes) (f : bytes -> routine_kind -> bool) : bool :=
  existsb (fun o => match o with ORoutine s' n' a k => beqb s' s && beqb n' n && f a k | _ => false end) l.
Definition has_parameter (args : bytes) (k : routine_kind) : bool := match args with [] => false | _ => true end.
Definition has_parameter_row (args : bytes) (k : routine_kind) : bool :=
  has_parameter args k || match k with Function => true | _ => false end.
Definition routine_listed (d : dialect) (l : list obj) (s n : bytes) : bool :=
  match d with
  | SQLServer => negb (like_any (B"sp") (to_lower n))
  | MySQL => some_routine l s n has_parameter_row
  | _ => true
  end.
(** pg_get_functiondef (postgres_routines.sql:20) fails for an aggregate.  Without a named parameter
    group_concat (mysql_routines.sql:19) is NULL, which cannot be read into a string
    (database_introspector.go:1196-1208). *)
Definition routine_fails (d : dialect) (l : list obj) (s n : bytes) (k : routine_kind) : bool :=
  match d with
  | Postgres => match k with Aggregate => true | _ => false end
  | MySQL => negb (some_routine l s n has_parameter)
  | _ => false
  end.
(** to_regclass(schema || '.' || name), postgres_views.sql:5 and 27: the text is split at the dots
    and what is not in quotes is turned into lower case.  Simplified: every name with a dot, a space
    or a leading quotation mark is an error (newer versions of Postgres overlook such views). *)
Definition reg_bad (n : bytes) : bool :=
  match n with
  | [] => true
  | c :: _ => ceqb c (ascii_of_nat 34) || existsb (fun c => ceqb c "."%char || (9 <=? nat_of_ascii c) && (nat_of_ascii c <=? 13) || ceqb c " "%char) n
  end.
Definition reg_found (l : list obj) (s n : bytes) : bool :=
  existsb (fun o => match o with OView s' n' _ | OTable s' n' _ => beqb s' (to_lower s) && beqb n' (to_lower n) | _ => false end) l.
Definition view_listed (d : dialect) (l : list obj) (s n : bytes) : bool :=
  schema_listed d s && relation_listed d n && match d with Postgres => reg_found l s n | _ => true end.
Definition view_fails (d : dialect) (s n : bytes) : bool := match d with Postgres => schema_listed d s && (reg_bad s || reg_bad n) | _ => false end.
(** What is asked of the database; [None] is an error. *)
Record intro := Intro {
  q_schema : option bytes;
  q_views : option (list (bytes * bytes * bool));        (* schema, name, IsMaterialized *)
  q_fks : option (list (bytes * bytes * bytes));         (* schema, table, name *)
  q_tables : option (list (bytes * bytes));
  q_routines : option (list (bytes * bytes * bytes));    (* schema, name, RoutineType *)
  q_enums : option (list (bytes * bytes));
  q_domains : option (list (bytes * bytes));
  q_exts : option (list bytes) }.
Definition kind_text (k : routine_kind) : bytes :=
  match k with Function => B"FUNCTION" | Procedure => B"PROCEDURE" | Aggregate => B"AGGREGATE" | WindowFunction => B"WINDOW" end.
Definition list_views (d : dialect) (l : list obj) : option (list (bytes * bytes * bool)) :=
  if existsb (fun o => match o with OView s n _ => view_fails d s n | _ => false end) l then None
  else Some (flat_map (fun o => match o with OView s n m => if view_listed d l s n then [(s, n, m)] else [] | _ => [] end) l).
Definition list_fks (d : dialect) (l : list obj) :=
  flat_map (fun o => match o with OFk s t n => if schema_listed d s then [(s, t, n)] else [] | _ => [] end) l.
(** postgres_tables.sql:10: relkind is r, not p. *)
Definition list_tables (d : dialect) (l : list obj) :=
  flat_map (fun o => match o with
    | OTable s n p => if schema_listed d s && relation_listed d n && negb (dialect_eqb d Postgres && p) then [(s, n)] else []
    | _ => [] end) l.
(** [ext o] says whether the object was created by an extension: postgres_routines.sql:27-38. *)
Definition list_routines (d : dialect) (ext : obj -> bool) (l : list obj) : option (list (bytes * bytes * bytes)) :=
  let listed o := match o with ORoutine s n a k => schema_listed d s && routine_listed d l s n && negb (ext o) | _ => false end in
  if existsb (fun o => listed o && match o with ORoutine s n _ k => routine_fails d l s n k | _ => false end) l then None
  else Some (flat_map (fun o => match o with ORoutine s n a k => if listed o then [(s, n, kind_text k)] else [] | _ => [] end) l).
Definition list_enums (d : dialect) (l : list obj) :=
  flat_map (fun o => match o with OEnum s n => if schema_listed d s then [(s, n)] else [] | _ => [] end) l.
Definition list_domains (d : dialect) (l : list obj) :=
  flat_map (fun o => match o with ODomain s n => if schema_listed d s then [(s, n)] else [] | _ => [] end) l.
Definition list_exts (l : list obj) := flat_map (fun o => match o with OExt n => [n] | _ => [] end) l.
(** The answers for a database that holds [l], in the order of [l], when no query fails. *)
Definition introspect (d : dialect) (cur : bytes) (ext : obj -> bool) (l : list obj) : intro :=
  Intro (Some cur) (list_views d l) (Some (list_fks d l)) (Some (list_tables d l)) (list_routines d ext l)
        (Some (list_enums d l)) (Some (list_domains d l)) (Some (list_exts l)).

(** ** The statements *)
(** wipe_cmd.go:118-121 and the like. *)
Definition qualified (d : dialect) (cur s n : bytes) : bytes :=
  (if negb (beqb s []) && negb (beqb s cur) then quote_identifier d s ++ B"." else []) ++ quote_identifier d n.
Definition cascade (d : dialect) (l : list dialect) : bytes := if existsb (dialect_eqb d) l then B" CASCADE" else [].
(** wipe_cmd.go:109-126 *)
Definition view_text d cur (v : bytes * bytes * bool) : bytes :=
  let '(s, n, m) := v in
  B"DROP " ++ (if m then B"MATERIALIZED " else []) ++ B"VIEW IF EXISTS " ++ qualified d cur s n ++ cascade d [Postgres; MySQL] ++ B";" ++ [LF].
(** wipe_cmd.go:137-150 *)
Definition fk_text d cur (k : bytes * bytes * bytes) : bytes :=
  let '(s, t, n) := k in
  B"ALTER TABLE " ++ qualified d cur s t ++ B" DROP CONSTRAINT " ++ quote_identifier d n ++ cascade d [Postgres] ++ B";" ++ [LF].
(** wipe_cmd.go:164-177 *)
Definition table_text d cur (t : bytes * bytes) : bytes :=
  let '(s, n) := t in
  B"DROP TABLE IF EXISTS " ++ qualified d cur s n ++ cascade d [Postgres; MySQL] ++ B";" ++ [LF].
(** wipe_cmd.go:185-205 *)
Definition routine_text d cur (r : bytes * bytes * bytes) : bytes :=
  let '(s, n, k) := r in
  B"DROP " ++ (if beqb k (B"PROCEDURE") then B"PROCEDURE " else B"FUNCTION ") ++ B"IF EXISTS " ++ qualified d cur s n ++ cascade d [Postgres] ++ B";" ++ [LF].
(** wipe_cmd.go:214-223 *)
Definition enum_text d cur (e : bytes * bytes) : bytes := let '(s, n) := e in B"DROP TYPE IF EXISTS " ++ qualified d cur s n ++ B" CASCADE;" ++ [LF].
(** wipe_cmd.go:230-239 *)
Definition domain_text d cur (e : bytes * bytes) : bytes := let '(s, n) := e in B"DROP DOMAIN IF EXISTS " ++ qualified d cur s n ++ B" CASCADE;" ++ [LF].
(** wipe_cmd.go:246-254 *)
Definition ext_text d (n : bytes) : bytes := B"DROP EXTENSION IF EXISTS " ++ quote_identifier d n ++ B" CASCADE;" ++ [LF].

(** The texts in order: wipe_cmd.go:104-256.  An error ends the command. *)
Definition statements (d : dialect) (q : intro) : option (list bytes) :=
  match d with
  | Other => None                                         (* unsupported dialect *)
  | _ =>
    match q_schema q, q_views q, (match d with SQLite => Some [] | _ => q_fks q end), q_tables q,
          (match d with SQLite => Some [] | _ => q_routines q end),
          (match d with Postgres => q_enums q | _ => Some [] end),
          (match d with Postgres => q_domains q | _ => Some [] end),
          (match d with Postgres => q_exts q | _ => Some [] end) with
    | Some cur, Some vs, Some fks, Some ts, Some rs, Some es, Some ds, Some xs =>
        Some (map (view_text d cur) vs
              ++ map (fk_text d cur) fks
              ++ (match d, ts with SQLite, _ :: _ => [B"PRAGMA defer_foreign_keys = 1;" ++ [LF]] | _, _ => [] end)
              ++ map (table_text d cur) ts
              ++ map (routine_text d cur) rs
              ++ map (enum_text d cur) es
              ++ map (domain_text d cur) ds
              ++ map (ext_text d) (filter (fun x => negb (beqb x (B"plpgsql"))) xs))
    | _, _, _, _, _, _, _, _ => None
    end
  end.
(** The buffer: a line break before every statement but the first. *)
Definition script (l : list bytes) : bytes := join [LF] l.

(** ** The command *)
(** [exec] is what the server does with a script: whether it succeeded, and the database
    afterwards; [w] the database.  Returned are the outcome, what was printed, and the
    database. *)
Definition wipe {W} (exec : bytes -> W -> bool * W) (begin_ok commit_ok print_ok : bool)
    (d : dialect) (dry : bool) (q : intro) (w : W) : outcome * bytes * W :=
  match statements d q with
  | None => (Failed, [], w)
  | Some l =>
      if dry then (if print_ok then Done else Failed, script l, w)
      else match script l with
           | [] => (Done, [], w)
           | s =>
               match d with
               | MySQL => let (ok, w') := exec s w in (if ok then Done else Failed, [], w')
               | _ =>
                   if begin_ok then
                     let (ok, w') := exec s w in
                     if ok && commit_ok then (Done, [], w') else (Failed, [], w)       (* rolled back *)
                   else (Failed, [], w)
               end
           end
  end.
