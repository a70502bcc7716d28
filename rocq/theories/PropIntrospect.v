(** C86: a live database is read into the catalog as it is. *)
From Verif Require Import GoStr ModelCatalog ModelCache ModelIntrospect SpecLive IntrospectDb.

(** Reading the database succeeds (without a panic) and gives the tables that were asked for, with their
    columns, constraints and indexes. *)
Definition C86_claim (d : dialect) (f : choice) (db : database) : Prop := read_database d f db = Ok (want d f db).
Definition C86_full : Prop := forall d f db, database_ok d db -> C86_claim d f db.

(** Missing: databases that are not [clear] (names with commas, names that LIKE takes for those of the
    database, partitioned and shadow tables with constraints, quoted tables of SQLite, foreign keys of SQLite
    without columns, checks that are not valid, names that are used twice, names in quotes in indexes of
    Postgres) and lists with empty names or names both included and excluded. *)
Theorem C86_partial : forall d f db, database_ok d db -> clear d f db -> C86_claim d f db.
Proof. exact read_is_want. Qed.

(** ** Databases *)
Definition all : choice := Choice false [] [] [] [].
Definition col (s t n ty : bytes) : column :=
  Column s t n ty [] [] [] [] false false false false false [] [] false false [] false [] false.
Definition con (s t n ty : bytes) (cols : list bytes) (rs rt : bytes) (refs : list bytes) (e : bytes) : constraint :=
  Constraint s t n ty cols rs rt refs [] [] [] e [] [] [] false false false false false.
Definition ix (s t n : bytes) (cols inc : list bytes) (desc : list bool) : index :=
  Index s t n [] false cols inc desc [] [] [] false.
Definition tab (s t : bytes) (cols : list column) (cs : list constraint) (xs : list index) : live_table :=
  LiveTable (Table s t [] false cols cs xs false) true false.
Definition other (x : live_table) : live_table := LiveTable (lv_table x) false (lv_quoted x).
Definition quoted (x : live_table) : live_table := LiveTable (lv_table x) (lv_ordinary x) true.
Definition INT : bytes := B"INT".

Ltac solve_ok :=
  repeat match goal with
  | |- database_ok _ _ => split; [discriminate|split]
  | |- NoDup [] => constructor
  | |- NoDup (_ :: _) => constructor; [vm_compute; intuition discriminate|]
  | |- NoDup ?l => let l' := eval hnf in l in progress change (NoDup l')
  | |- Forall _ [] => constructor
  | |- Forall _ (_ :: _) => constructor
  | |- Forall ?P ?l => let l' := eval hnf in l in progress change (Forall P l')
  | |- schema_ok _ _ => split; [|split; [|split]]
  | |- table_ok _ _ _ => split; [reflexivity|split; [reflexivity|split; [|split; [|split; [|split; [|split]]]]]]
  | |- column_ok _ _ => vm_compute; intuition discriminate
  | |- index_ok _ _ _ => split; [reflexivity|split; [reflexivity|split; [reflexivity|split; [discriminate|split; [|split]]]]]
  | |- named _ => vm_compute; discriminate
  | |- constraint_ok _ _ _ => unfold constraint_ok; split; [reflexivity|split; [reflexivity|split; [reflexivity|
      split; [vm_compute; intuition discriminate|split; [vm_compute; intuition discriminate|split; [vm_compute; intuition discriminate|
      split; [intros _ q Hq; vm_compute in Hq |- *; intuition|split; [vm_compute; intuition discriminate|
      split; [vm_compute; intuition discriminate|split; [split|split; [split; first [left; reflexivity|right; left; reflexivity|right; right; right; right; left; reflexivity]|vm_compute; intuition discriminate]]]]]]]]]]]
  end; try exact I; try (vm_compute; intuition discriminate).

(** *** Panics *)
(** CREATE TABLE a (id INTEGER PRIMARY KEY); CREATE TABLE b (a_id INTEGER REFERENCES a); *)
Definition implicit : database :=
  [([], [tab [] (B"a") [col [] (B"a") (B"id") INT] [con [] (B"a") [] PRIMARY_KEY [B"id"] [] [] [] []] [];
         tab [] (B"b") [col [] (B"b") (B"a_id") INT] [con [] (B"b") [] FOREIGN_KEY [B"a_id"] [] (B"a") [] []] []])].
(** CREATE VIRTUAL TABLE rt USING rtree(...) with its table rt_node *)
Definition shadow : database :=
  [([], [tab [] (B"rt") [col [] (B"rt") (B"id") INT] [] [];
         other (tab [] (B"rt_node") [col [] (B"rt_node") (B"nodeno") INT] [con [] (B"rt_node") [] PRIMARY_KEY [B"nodeno"] [] [] [] []] [])])].
(** CREATE TABLE log (id INT PRIMARY KEY) PARTITION BY RANGE (id); and another table *)
Definition partitioned : database :=
  [(B"public", [tab (B"public") (B"a") [col (B"public") (B"a") (B"id") INT] [] [];
     other (tab (B"public") (B"log") [col (B"public") (B"log") (B"id") INT]
       [con (B"public") (B"log") (B"log_pkey") PRIMARY_KEY [B"id"] [] [] [] []] [])])].
(** CREATE INDEX i ON t ([x,y]) *)
Definition comma : database :=
  [(B"dbo", [tab (B"dbo") (B"t") [col (B"dbo") (B"t") (B"x,y") INT] [] [ix (B"dbo") (B"t") (B"i") [B"x,y"] [] [false]]])].
(** CREATE TABLE b (x INT, UNIQUE KEY k (x), CONSTRAINT k FOREIGN KEY (x) REFERENCES a (id)) *)
Definition twice : database :=
  [(B"db", [tab (B"db") (B"a") [col (B"db") (B"a") (B"id") INT] [con (B"db") (B"a") (B"PRIMARY") PRIMARY_KEY [B"id"] [] [] [] []] [];
     tab (B"db") (B"b") [col (B"db") (B"b") (B"x") INT]
       [con (B"db") (B"b") (B"k") UNIQUE [B"x"] [] [] [] []; con (B"db") (B"b") (B"k") FOREIGN_KEY [B"x"] (B"db") (B"a") [B"id"] []] []])].
Definition panics (d : dialect) (db : database) : Prop := database_ok d db /\ read_database d all db = Panic.
Theorem C86_refuted_panics :
  panics SQLite implicit /\ panics SQLite shadow /\ panics Postgres partitioned /\ panics SQLServer comma /\ panics MySQL twice.
Proof.
  repeat split; try (vm_compute; reflexivity); solve_ok.
Qed.

(** A schema that has nothing but partitioned tables is left out, with their constraints. *)
Definition only_partitioned : database :=
  [(B"public", [tab (B"public") (B"a") [col (B"public") (B"a") (B"id") INT] [] []]);
   (B"logs", [other (tab (B"logs") (B"log") [col (B"logs") (B"log") (B"id") INT]
       [con (B"logs") (B"log") (B"log_pkey") PRIMARY_KEY [B"id"] [] [] [] []] [])])].
Theorem C86_partitioned_left_out : database_ok Postgres only_partitioned
  /\ exists sc, read_database Postgres all only_partitioned = Ok [sc] /\ sc_name sc = B"public" /\ map tb_name (sc_tables sc) = [B"a"].
Proof. split; [solve_ok|]. eexists. split; [vm_compute; reflexivity|]. split; reflexivity. Qed.

(** *** Wrong catalogs *)
Definition users (s : bytes) (cs : list constraint) (xs : list index) : live_table :=
  tab s (B"users") [col s (B"users") (B"id") INT; col s (B"users") (B"email") (B"TEXT")] cs xs.
(** A schema that is called pgboss is not read. *)
Definition pgboss : database := [(B"pgboss", [users (B"pgboss") [] []])].
(** CREATE TABLE 'users' (id INTEGER, email TEXT) has no columns. *)
Definition literal : database := [([], [quoted (users [] [] [])])].
(** An index with the name of a constraint of another schema is not read. *)
Definition hidden : database :=
  [(B"app", [users (B"app") [con (B"app") (B"users") (B"users_email_key") UNIQUE [B"email"] [] [] [] []] []]);
   (B"old", [users (B"old") [] [ix (B"old") (B"users") (B"users_email_key") [B"email"] [] [false]]])].
(** ALTER TABLE users ADD CHECK (id > 0) NOT VALID *)
Definition invalid : database :=
  [(B"public", [users (B"public")
     [Constraint (B"public") (B"users") (B"users_id_check") CHECK [] [] [] [] [] [] [] (B"id > 0") [] [] [] false false false true false] []])].
(** A unique key with the name of a check of another table is read as a check. *)
Definition unlike : database :=
  [(B"db", [tab (B"db") (B"a") [col (B"db") (B"a") (B"id") INT] [con (B"db") (B"a") (B"k") CHECK [] [] [] [] (B"id > 0")] [];
            users (B"db") [con (B"db") (B"users") (B"k") UNIQUE [B"email"] [] [] [] []] []])].
(** CREATE INDEX i ON t ("Name") *)
Definition upper : database :=
  [(B"public", [tab (B"public") (B"t") [col (B"public") (B"t") (B"Name") INT] [] [ix (B"public") (B"t") (B"i") [B"Name"] [] []]])].
(** CREATE INDEX i ON t ("2nd") *)
Definition second : database :=
  [(B"public", [tab (B"public") (B"t") [col (B"public") (B"t") (B"2nd") INT] [] [ix (B"public") (B"t") (B"i") [B"2nd"] [] []]])].
(** CREATE TABLE t ("x,y" INT, z INT, UNIQUE ("x,y")) *)
Definition comma_key : database :=
  [([], [tab [] (B"t") [col [] (B"t") (B"x,y") INT; col [] (B"t") (B"z") INT] [con [] (B"t") [] UNIQUE [B"x,y"] [] [] [] []] []])].
Definition wrong (d : dialect) (f : choice) (db : database) : Prop :=
  database_ok d db /\ exists l, read_database d f db = Ok l /\ l <> want d f db.
Ltac solve_wrong := split; [solve_ok|eexists; split; [vm_compute; reflexivity|vm_compute; discriminate]].
Theorem C86_refuted_wrong :
  wrong Postgres all pgboss /\ wrong SQLite all literal /\ wrong Postgres all hidden /\ wrong MySQL all hidden /\ wrong Postgres all invalid
  /\ wrong MySQL all unlike /\ wrong Postgres all upper /\ wrong Postgres all second /\ wrong SQLite all comma_key.
Proof. do 8 (split; [solve_wrong|]). solve_wrong. Qed.

(** A table that is both included and excluded is read; a list with nothing but an empty name is an error. *)
Definition both : choice := Choice false [] [] [B"users"] [B"users"].
Definition empty : choice := Choice false [] [] [[]] [].
Definition one_table : database := [(B"public", [users (B"public") [] []])].
Theorem C86_refuted_filter :
  wrong Postgres both one_table /\ (database_ok Postgres one_table /\ read_database Postgres empty one_table = Err).
Proof. split; [solve_wrong|]. split; [solve_ok|vm_compute; reflexivity]. Qed.

Theorem C86_refuted : ~ C86_full.
Proof.
  intro H. destruct C86_refuted_panics as ((W & P) & _). pose proof (eq_trans (eq_sym P) (H SQLite all implicit W)) as X.
  clear - X. discriminate X.
Qed.

(** ** A database that is read *)
Definition shop (d : dialect) (name : bytes -> bytes) (expr : bytes) : live_schema :=
  let s := match d with SQLite => [] | _ => B"shop" end in
  (s, [tab s (B"customer") [col s (B"customer") (B"id") INT; col s (B"customer") (B"email") (B"TEXT")]
         [con s (B"customer") (name (B"customer_pkey")) PRIMARY_KEY [B"id"] [] [] [] [];
          con s (B"customer") (name (B"customer_email_key")) UNIQUE [B"email"] [] [] [] []] [];
       tab s (B"item") [col s (B"item") (B"a") INT; col s (B"item") (B"b") INT; col s (B"item") (B"c") INT]
         (Constraint s (B"item") (name (B"item_c_fkey")) FOREIGN_KEY [B"c"] s (B"customer") [B"id"] (B"NO ACTION") (B"SET NULL") [] [] [] [] [] false false false false false
          :: con s (B"item") (name (B"item_pkey")) PRIMARY_KEY [B"a"; B"b"] [] [] [] []
          :: match d with SQLite => [] | _ => [con s (B"item") (B"item_check") CHECK [] [] [] [] (B"a < b")] end)
         [ix s (B"item") (B"item_idx") [B"b"; expr] [] [false; true]]]).
(** Another schema, which is not wanted. *)
Definition other_shop : live_schema := (B"other", [users (B"other") [] []]).
Definition mine : choice := Choice false [] [B"other"] [] [].
Definition shops (d : dialect) (name : bytes -> bytes) (expr : bytes) : database :=
  shop d name expr :: match d with SQLite => [] | _ => [other_shop] end.
Definition id_name (n : bytes) : bytes := n.
Definition no_name (n : bytes) : bytes := [].

Ltac solve_clear :=
  repeat match goal with
  | |- clear _ _ _ => split; [repeat split; try (left; reflexivity); try (right; reflexivity); vm_compute; intuition discriminate|]
  | |- Forall _ [] => constructor
  | |- Forall _ (_ :: _) => constructor
  | |- Forall ?P ?l => let l' := eval hnf in l in progress change (Forall P l')
  | |- clear_schema _ _ _ => split
  | |- clear_table _ _ _ _ => split; [vm_compute; intuition discriminate|split; [left; reflexivity|split; [reflexivity|split]]]
  | |- clear_constraint _ _ => split; [|split; vm_compute; intuition discriminate]
  | |- clear_index _ _ _ _ => split
  | |- _ <> _ -> _ => intro
  | |- Forall _ _ /\ Forall _ _ => split
  | |- no_comma _ => vm_compute; intuition discriminate
  end.
Definition ok_and_clear (d : dialect) (f : choice) (db : database) : Prop := database_ok d db /\ clear d f db.
Ltac no_same_name :=
  let s := fresh in let c := fresh in let S := fresh in let C := fresh in
  intros _ s c S C; vm_compute in S; repeat destruct S as [<-|S]; try contradiction; vm_compute in C;
  repeat destruct C as [<-|C]; try contradiction; vm_compute; discriminate.
Ltac same_type :=
  let a := fresh in let b := fresh in let A := fresh in let C := fresh in
  intros _ a b A C; vm_compute in A, C; repeat destruct A as [<-|A]; try contradiction;
  repeat destruct C as [<-|C]; try contradiction; vm_compute; (reflexivity || discriminate).
Lemma sqlite_ok : ok_and_clear SQLite mine (shops SQLite no_name (B"c")).
Proof. split; [solve_ok|solve_clear; try discriminate; try no_same_name]. Qed.
Lemma pg_ok : ok_and_clear Postgres mine (shops Postgres id_name (B"lower(c)")).
Proof.
  split; [solve_ok|solve_clear; try discriminate; try no_same_name]; vm_compute; intuition discriminate.
Qed.
Lemma mysql_ok : ok_and_clear MySQL mine (shops MySQL id_name (B"(c + 1)")).
Proof. split; [solve_ok|solve_clear; try discriminate; try no_same_name; try same_type];
    (split; [|split; [vm_compute; intuition discriminate|reflexivity]]).
  - apply SpecArgs.a_char; try discriminate. constructor.
  - apply (SpecArgs.a_paren (B"c + 1") []); [|constructor]. repeat (apply SpecArgs.g_char; try discriminate). constructor.
Qed.
Lemma ms_ok : ok_and_clear SQLServer mine (shops SQLServer id_name (B"c")).
Proof. split; [solve_ok|solve_clear; try discriminate; try no_same_name]; intros [Z|Z]; discriminate. Qed.
Definition ours : list (dialect * database) :=
  [(SQLite, shops SQLite no_name (B"c")); (Postgres, shops Postgres id_name (B"lower(c)"));
   (MySQL, shops MySQL id_name (B"(c + 1)")); (SQLServer, shops SQLServer id_name (B"c"))].
Lemma ours_ok : Forall (fun x => ok_and_clear (fst x) mine (snd x)) ours.
Proof. repeat apply Forall_cons; try apply Forall_nil; (exact sqlite_ok || exact pg_ok || exact mysql_ok || exact ms_ok). Qed.
(** What was read: names of tables, constraints and indexes with their columns. *)
Definition brief (r : result (list schema)) :=
  match r with
  | Ok l => map (fun s => (sc_name s, map (fun t => (tb_name t, map col_name (tb_columns t),
              map (fun c => (con_type c, con_columns c, con_refcolumns c, con_delete c)) (tb_constraints t),
              map (fun x => (ix_name x, ix_columns x)) (tb_indexes t))) (sc_tables s))) l
  | _ => []
  end.
Definition expected (d : dialect) (expr : bytes) :=
  let s := match d with SQLite => [] | _ => B"shop" end in
  [(s, [(B"customer", [B"id"; B"email"],
         [(PRIMARY_KEY, [B"id"], @nil bytes, @nil ascii); (UNIQUE, [B"email"], [], [])], []);
        (B"item", [B"a"; B"b"; B"c"],
         (FOREIGN_KEY, [B"c"], [B"id"], B"SET NULL") :: (PRIMARY_KEY, [B"a"; B"b"], [], [])
          :: match d with SQLite => [] | _ => [(CHECK, [], [], [])] end,
         [(B"item_idx", [B"b"; expr])])])].
Example C86_example :
  brief (read_database SQLite mine (shops SQLite no_name (B"c"))) = expected SQLite (B"c")
  /\ brief (read_database Postgres mine (shops Postgres id_name (B"lower(c)"))) = expected Postgres (B"lower(c)")
  /\ brief (read_database MySQL mine (shops MySQL id_name (B"(c + 1)"))) = expected MySQL (B"(c + 1)")
  /\ brief (read_database SQLServer mine (shops SQLServer id_name (B"c"))) = expected SQLServer (B"c").
Proof. vm_compute. split; [reflexivity|]. split; [reflexivity|]. split; reflexivity. Qed.
Print Assumptions C86_partial.
Print Assumptions C86_refuted.
Print Assumptions C86_refuted_wrong.
Print Assumptions C86_partitioned_left_out.
Print Assumptions C86_refuted_filter.
