(** Model of the sequence of queries by which the catalog of a live database is read, ddl/database_introspector.go, when
    queries may be refused and answers may break off.

    Simplified: a row is its cells; what one row is turned into ([scan]) and what becomes of it in the catalog is the
    matter of C86 to C88, C102, C107 and C108; an answer that breaks off is noticed only by who reads on after its last
    row, as rows.Err is set by rows.Next (database/sql); rows.Close succeeds. *)
From Verif Require Import GoStr ModelDdl ModelVersion ModelCsv.

Inductive query := QVersion | QDatabase | QSchema | QCollation | QExtensions | QEnums | QDomains | QRoutines | QViews
  | QTables | QColumns | QConstraints | QIndexes | QTriggers.
Definition row := list (option bytes).
(** What a query gets: an error at once, or rows and then possibly an error. *)
Record answer := Answer { an_refused : bool; an_rows : list row; an_broke : bool }.
(** rows.Scan to a *string: NULL is an error. *)
Definition text_of (r : row) : result bytes := match r with [Some s] => Ok s | _ => Err end.
(** closeRows, database_introspector.go:1530-1540, after the last row. *)
Definition close_rows (a : answer) : result unit := if an_broke a then Err else Ok tt.
(** GetVersion, 269-304: rows.Err is not asked. *)
Definition get_version (d : dialect) (db : query -> answer) : result bytes :=
  match d with
  | Other => Err
  | _ => let a := db QVersion in
         if an_refused a then Err else match an_rows a with [] => Ok [] | r :: _ => text_of r end
  end.
(** GetDatabaseName, GetCurrentSchema and GetDefaultCollation, 335-438.  After one row there is nothing to notice. *)
Definition get_name (d : dialect) (db : query -> answer) (q : query) : result bytes :=
  match d with
  | SQLite => Ok []
  | Other => Err
  | _ => let a := db q in
         if an_refused a then Err
         else match an_rows a with [] => bindr (close_rows a) (fun _ => Ok []) | r :: _ => text_of r end
  end.
(** The loop of GetColumns, GetConstraints, GetDomains, GetEnums, GetExtensions, GetIndexes, GetRoutines, GetTables,
    GetTriggers and GetViews, 440-1494, with queryContext, 1499-1528.  GetTriggers does not ask rows.Err (1388). *)
Definition read_rows (scan : query -> row -> result row) (db : query -> answer) (q : query) : result (list row) :=
  let a := db q in
  if an_refused a then Err
  else bindr (mapr (scan q) (an_rows a)) (fun l =>
       match q with QTriggers => Ok l | _ => bindr (close_rows a) (fun _ => Ok l) end).
Definition get_rows (d : dialect) (scan : query -> row -> result row) (db : query -> answer) (q : query) : result (list row) :=
  match q, d with
  | (QExtensions | QEnums | QDomains), Postgres => read_rows scan db q
  | (QExtensions | QEnums | QDomains), _ => Ok []
  | QRoutines, SQLite => Ok []
  | _, Other => Err
  | _, _ => read_rows scan db q
  end.
(** includeObjectType, 52-62. *)
Definition included (types : list bytes) (t : bytes) : bool := match types with [] => true | _ => bmem t types end.
(** The order of WriteCatalog, 87-234. *)
Definition stages (types : list bytes) : list query :=
  let add t l := if included types t then l else [] in
  add (B"EXTENSIONS") [QExtensions] ++ add (B"ENUMS") [QEnums] ++ add (B"DOMAINS") [QDomains] ++
  add (B"ROUTINES") [QRoutines] ++ add (B"VIEWS") [QViews] ++ add (B"TABLES") [QTables; QColumns; QConstraints] ++
  (if included types (B"TABLES") || included types (B"VIEWS") then [QIndexes; QTriggers] else []).
Fixpoint gather {A} (get : query -> result A) (l : list query) : result (list (query * A)) :=
  match l with
  | [] => Ok []
  | q :: l' => bindr (get q) (fun a => bindr (gather get l') (fun r => Ok ((q, a) :: r)))
  end.
(** What is known of the database afterwards. *)
Record reading := Reading { rd_version : list Z; rd_names : list (query * bytes); rd_rows : list (query * list row) }.
(** WriteCatalog, 46-234. *)
Definition read_catalog (d : dialect) (types : list bytes) (scan : query -> row -> result row) (db : query -> answer) : result reading :=
  bindr (get_version d db) (fun v =>
  bindr (version_nums d v) (fun ns =>
  bindr (gather (get_name d db) [QDatabase; QSchema; QCollation]) (fun names =>
  bindr (gather (get_rows d scan db) (stages types)) (fun l => Ok (Reading ns names l))))).
