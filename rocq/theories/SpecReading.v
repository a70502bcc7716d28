(** Specification for C122: which questions belong to a catalog, and when they are answered. *)
From Verif Require Import GoStr ModelDdl ModelVersion ModelReading.

(** Which products have what. *)
Definition has (d : dialect) (q : query) : Prop :=
  match q with
  | QExtensions | QEnums | QDomains => d = Postgres
  | QRoutines | QDatabase | QSchema | QCollation => d <> SQLite
  | _ => True
  end.
(** What belongs to which type of objects (Filter.ObjectTypes, database_introspector.go:1567-1571). *)
Inductive belongs : bytes -> query -> Prop :=
| b_extensions : belongs (B"EXTENSIONS") QExtensions | b_enums : belongs (B"ENUMS") QEnums | b_domains : belongs (B"DOMAINS") QDomains
| b_routines : belongs (B"ROUTINES") QRoutines | b_views : belongs (B"VIEWS") QViews
| b_tables q : In q [QTables; QColumns; QConstraints] -> belongs (B"TABLES") q
| b_both t q : In t [B"TABLES"; B"VIEWS"] -> In q [QIndexes; QTriggers] -> belongs t q.
Definition single (q : query) : Prop := In q [QVersion; QDatabase; QSchema; QCollation].
Definition asked (d : dialect) (types : list bytes) (q : query) : Prop :=
  has d q /\ (single q \/ exists t, belongs t q /\ (types = [] \/ In t types)).
(** A question is answered if nothing went wrong, or the one row that was asked for had come. *)
Definition answered (q : query) (a : answer) : Prop :=
  an_refused a = false /\ (an_broke a = false \/ single q /\ an_rows a <> []).
(** What was said. *)
Definition said (scan : query -> row -> result row) (q : query) (a : answer) (l : list row) : Prop :=
  Forall2 (fun r x => scan q r = Ok x) (an_rows a) l.
Definition told (a : answer) (s : bytes) : Prop := (an_rows a = [] /\ s = []) \/ exists rest, an_rows a = [Some s] :: rest.
Definition faithful (d : dialect) (scan : query -> row -> result row) (db : query -> answer) (c : reading) (q : query) : Prop :=
  match q with
  | QVersion => exists v, told (db q) v /\ version_nums d v = Ok (rd_version c)
  | QDatabase | QSchema | QCollation => exists s, In (q, s) (rd_names c) /\ told (db q) s
  | _ => exists l, In (q, l) (rd_rows c) /\ said scan q (db q) l
  end.
(** What can be read at all. *)
Definition legible (d : dialect) (scan : query -> row -> result row) (q : query) (a : answer) : Prop :=
  match q with
  | QVersion => exists v ns, told a v /\ version_nums d v = Ok ns
  | QDatabase | QSchema | QCollation => exists s, told a s
  | _ => exists l, said scan q a l
  end.
