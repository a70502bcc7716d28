(** Which version of which product has what, from the release notes of SQLite, Postgres, MySQL, MariaDB and SQL
    Server.  Of the model of the code only the names of the features and of the scripts
    are used. *)
From Verif Require Import GoStr ModelCatalog ModelScripts SpecVersion.

Inductive product := SQLiteLib | PostgresServer | MySQLServer | MariaDB | MSSQL.
(** The version [v] is [w] or a later one; numbers that are not written are 0. *)
Fixpoint at_least (v w : list N) : bool :=
  match w with
  | [] => true
  | y :: w' =>
      match v with
      | [] => (y =? 0)%N && at_least [] w'
      | x :: v' => (y <? x)%N || ((y =? x)%N && at_least v' w')
      end
  end.
Definition has (p : product) (v : list N) (f : feature) : bool :=
  match p, f with
  | SQLiteLib, SqliteSchema => at_least v [3; 33]
  | SQLiteLib, PragmaFunctions => at_least v [3; 16]
  | SQLiteLib, TableXinfo => at_least v [3; 26]
  | SQLiteLib, TableList => at_least v [3; 37]
  | SQLiteLib, WordFalse => at_least v [3; 23]
  | PostgresServer, PgExtension => at_least v [9; 1]
  | PostgresServer, PgMatviews => at_least v [9; 3]
  | PostgresServer, Ordinality => at_least v [9; 4]
  | PostgresServer, RegclassOfText => at_least v [9; 6]
  | PostgresServer, AttIdentity => at_least v [10]
  | PostgresServer, AttGenerated => at_least v [12]
  | PostgresServer, IndNKeyAtts => at_least v [11]
  | PostgresServer, ProKind => at_least v [11]
  | PostgresServer, ProIsAgg => negb (at_least v [11])
  | MySQLServer, Parameters => at_least v [5; 5; 3]
  | MySQLServer, GenerationExpr => at_least v [5; 7; 6]
  | MySQLServer, StatExpression => at_least v [8; 0; 13]
  | MySQLServer, CheckConstraints => at_least v [8; 0; 16]
  | MariaDB, Parameters => at_least v [5; 5]
  | MariaDB, GenerationExpr => at_least v [10; 2; 5]
  | MariaDB, StatExpression => false
  | MariaDB, CheckConstraints => at_least v [10; 3; 10] || (at_least v [10; 2; 22] && negb (at_least v [10; 3]))
  | MSSQL, SqlConcat => at_least v [11]
  | MSSQL, StringAgg => at_least v [14]
  | _, _ => false
  end%N.
(** The products with which the dialects are used, by the version that they report. *)
Definition is_product (d : dialect) (r : release) (p : product) : Prop :=
  match d, p with
  | SQLite, SQLiteLib | Postgres, PostgresServer | SQLServer, MSSQL => True
  | MySQL, MariaDB => exists a b, rl_tail r = a ++ B"MariaDB" ++ b
  | MySQL, MySQLServer => ~ exists a b, rl_tail r = a ++ B"MariaDB" ++ b
  | _, _ => False
  end.
(** Everything that is asked for is there. *)
Definition answered (p : product) (v : list N) (l : list (script * list feature)) : Prop :=
  forall s fs f, In (s, fs) l -> In f fs -> has p v f = true.
(** The versions that WriteCatalog can read. *)
Definition readable (p : product) (v : list N) : Prop :=
  match p with
  | SQLiteLib => at_least v [3; 33] = true
  | PostgresServer => at_least v [12] = true
  | MySQLServer => at_least v [8; 0; 16] = true \/ (at_least v [5; 7; 6] = true /\ at_least v [8] = false)
  | MariaDB => at_least v [10; 3; 10] = true \/ (at_least v [10; 2; 22] = true /\ at_least v [10; 3] = false)
  | MSSQL => at_least v [14] = true
  end%N.
(** The versions that wipe can read. *)
Definition wipeable (p : product) (v : list N) : Prop :=
  match p with
  | SQLiteLib => at_least v [3; 37] = true
  | PostgresServer => at_least v [11] = true
  | MySQLServer => at_least v [5; 5; 3] = true
  | MariaDB => at_least v [5; 5] = true
  | MSSQL => at_least v [14] = true
  end%N.
(** The files of the directory introspection_scripts. *)
Definition files (d : dialect) : list script :=
  match d with
  | SQLite => [Columns; Constraints; Indexes; Tables; Triggers; Views]
  | Postgres => [Columns; Constraints; Domains; Enums; Extensions; Indexes; Routines; Tables; Triggers; Views]
  | MySQL | SQLServer => [Columns; Constraints; Indexes; Routines; Tables; Triggers; Views]
  | Other => []
  end.
