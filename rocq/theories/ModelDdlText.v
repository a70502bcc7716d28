(** Model of the functions that write DDL statements (dump_cmd.go:1003-1350) and of the texts
    around them in the methods sql of the four migrations: the contents of the files whose
    statements are those of ModelDiffSql.v. *)
From Verif Require Import GoStr ModelSq ModelCatalog ModelDdl ModelDiff ModelDiffSql.

(** ddl.go:19-37. *)
Definition EXCLUDE : bytes := B"EXCLUDE".
Definition NO_ACTION : bytes := B"NO ACTION".
Definition opt (b : bool) (s : bytes) : bytes := if b then s else [].
Definition given (s : bytes) : bool := negb (is_empty s).
Definition is (d d' : dialect) : bool := dialect_eqb d d'.

(** A table with its schema if that is not the current one, e.g. dump_cmd.go:1021-1024. *)
Definition qtext (d : dialect) (q : qname) : bytes :=
  opt (given (fst q)) (quote_identifier d (fst q) ++ B".") ++ quote_identifier d (snd q).

(** writeColumnNames, dump_cmd.go:1263-1270. *)
Definition write_column_names (d : dialect) (l : list bytes) : bytes := join (B", ") (map (quote_identifier d) l).

(** The fields of a column that repeat its single-column foreign key, ddl.go:336-368. *)
Record reference := Reference {
  rf_schema : bytes; rf_table : bytes; rf_column : bytes; rf_update : bytes; rf_delete : bytes;
  rf_deferrable : bool; rf_deferred : bool
}.
(** dump_cmd.go:1248-1253 and 1314-1319. *)
Definition write_rules (u v : bytes) : bytes :=
  opt (given u && negb (beqb u NO_ACTION)) (B" ON UPDATE " ++ u)
  ++ opt (given v && negb (beqb v NO_ACTION)) (B" ON DELETE " ++ v).
(** dump_cmd.go:1254-1259 and 1344-1349. *)
Definition write_deferrable (d : dialect) (a b : bool) : bytes :=
  opt (a && (is d SQLite || is d Postgres)) (B" DEFERRABLE" ++ opt b (B" INITIALLY DEFERRED")).

(** writeColumnDefinition, dump_cmd.go:1170-1261.  [level] is columnLevelConstraint, [ref] is
    used only then. *)
Definition write_type (d : dialect) (c : column) : bytes :=
  if given (col_domain c) then B" " ++ col_domain c
  else if col_enum c then B" " ++ col_type c
  else opt (given (col_type c) && negb (is d SQLServer && given (col_expr c))) (B" " ++ to_upper (col_type c)).
Definition write_collate (d : dialect) (coll c : bytes) : bytes :=
  opt (given c && negb (beqb c coll))
    (B" COLLATE " ++ match d with Postgres => dquote :: escape_quote dquote c ++ [dquote] | _ => c end).
Definition write_generated (d : dialect) (c : column) : bytes :=
  opt (given (col_expr c))
    (match d with
     | SQLite | Postgres => B" GENERATED ALWAYS AS " ++ wrap_brackets (col_expr c) ++ B" STORED"
     | MySQL => B" AS " ++ wrap_brackets (col_expr c) ++ opt (col_stored c) (B" STORED")
     | SQLServer => B" AS " ++ wrap_brackets (col_expr c) ++ opt (col_stored c) (B" PERSISTED")
     | Other => []
     end).
Definition write_references (d : dialect) (schema : bytes) (r : reference) : bytes :=
  opt (given (rf_table r) && given (rf_column r))
    (B" REFERENCES "
     ++ opt (given (rf_schema r) && negb (beqb (rf_schema r) schema)) (quote_identifier d (rf_schema r) ++ B".")
     ++ quote_identifier d (rf_table r) ++ B" (" ++ quote_identifier d (rf_column r) ++ B")"
     ++ write_rules (rf_update r) (rf_delete r) ++ write_deferrable d (rf_deferrable r) (rf_deferred r)).
Definition write_column (d : dialect) (coll : bytes) (c : column) (level : bool) (r : reference) : bytes :=
  quote_identifier d (col_name c)
  ++ write_type d c
  ++ opt (col_pkey c && (level || is d SQLite)) (B" PRIMARY KEY")
  ++ opt (col_autoincrement c) (match d with SQLite => B" AUTOINCREMENT" | MySQL => B" AUTO_INCREMENT" | _ => [] end)
  ++ opt (col_notnull c && negb (is d SQLServer && given (col_expr c))) (B" NOT NULL")
  ++ opt (col_unique c && level) (B" UNIQUE")
  ++ opt (given (col_identity c) && (is d Postgres || is d SQLServer)) (B" " ++ col_identity c)
  ++ opt (given (col_default c)) (B" DEFAULT " ++ col_default c)
  ++ opt (col_onupdate c && is d MySQL) (B" ON UPDATE CURRENT_TIMESTAMP")
  ++ write_collate d coll (col_collation c)
  ++ write_generated d c
  ++ opt level (write_references d (col_schema c) r).
Definition no_reference : reference := Reference [] [] [] [] [] false false.

(** writeConstraintDefinition, dump_cmd.go:1272-1350. *)
Definition write_target (d : dialect) (cur : bytes) (c : constraint) : bytes :=
  (if given (con_refschema c) && negb (beqb (con_refschema c) cur) then quote_identifier d (con_refschema c) ++ B"."
   else if is d MySQL && negb (beqb (con_schema c) (con_refschema c)) then
     quote_identifier d (if is_empty (con_refschema c) then cur else con_refschema c) ++ B"."
   else [])
  ++ quote_identifier d (con_reftable c).
Fixpoint write_exclusions (cols ops : list bytes) : list bytes :=
  match cols with
  | [] => []
  | c :: cols' => (c ++ B" WITH " ++ match ops with o :: _ => o | [] => [] end) :: write_exclusions cols' (tl ops)
  end.
Definition write_constraint (d : dialect) (cur : bytes) (c : constraint) : bytes :=
  if beqb (con_type c) PRIMARY_KEY && is d MySQL then
    B"PRIMARY KEY (" ++ write_column_names d (con_columns c) ++ B")"
  else
    opt (given (con_name c)) (B"CONSTRAINT " ++ quote_identifier d (con_name c) ++ B" ")
    ++ con_type c
    ++ if beqb (con_type c) CHECK then B" (" ++ con_check c ++ B")"
       else
         opt (negb (beqb (con_type c) EXCLUDE)) (B" (" ++ write_column_names d (con_columns c) ++ B")")
         ++ opt (beqb (con_type c) FOREIGN_KEY)
              (B" REFERENCES " ++ write_target d cur c ++ B" (" ++ write_column_names d (con_refcolumns c) ++ B")"
               ++ write_rules (con_update c) (con_delete c))
         ++ opt (beqb (con_type c) EXCLUDE && is d Postgres)
              (opt (given (con_indextype c)) (B" USING " ++ con_indextype c)
               ++ B" (" ++ join (B", ") (write_exclusions (con_columns c) (con_operators c)) ++ B")"
               ++ opt (given (con_predicate c)) (B" WHERE (" ++ con_predicate c ++ B")"))
         ++ write_deferrable d (con_deferrable c) (con_deferred c).

(** writeCreateTable, dump_cmd.go:1016-1093. *)
Definition NL : bytes := [LF].
Definition omitted (c : column) : bool := col_ignore c || (col_generated c && is_empty (col_expr c)).
Definition listed_constraints (d : dialect) (all : bool) (l : list constraint) : list constraint :=
  match d with
  | SQLite =>
      filter (fun c => negb (con_ignore c) && negb (beqb (con_type c) PRIMARY_KEY && (List.length (con_columns c) =? 1))) l
  | _ =>
      if all then filter (fun c => negb (con_ignore c) && negb (beqb (con_type c) FOREIGN_KEY)) l
      else match d with
           | MySQL | SQLServer => firstn 1 (filter (fun c => beqb (con_type c) PRIMARY_KEY && negb (con_ignore c)) l)
           | _ => []
           end
  end.
(** The first element is written after [a], the others after [b]. *)
Definition after (a b : bytes) (l : list bytes) : bytes :=
  match l with [] => [] | x :: l' => a ++ x ++ flat_map (fun y => b ++ y) l' end.
Definition write_create_table (d : dialect) (cur coll : bytes) (t : table) (all : bool) : bytes :=
  if given (tb_sql t) then tb_sql t ++ NL
  else
    B"CREATE TABLE " ++ qtext d (qualify cur (tb_schema t) (tb_name t)) ++ B" ("
    ++ after (NL ++ B"    ") (NL ++ B"    ,")
         (map (fun c => write_column d coll c false no_reference) (filter (fun c => negb (omitted c)) (tb_columns t)))
    ++ after (NL ++ NL ++ B"    ,") (NL ++ B"    ,")
         (map (write_constraint d cur) (listed_constraints d all (tb_constraints t)))
    ++ NL ++ B");" ++ NL.

(** writeIndexDefinition, dump_cmd.go:1111-1168. *)
Fixpoint write_index_columns (d : dialect) (cols : list bytes) (desc : list bool) : list bytes :=
  match cols with
  | [] => []
  | c :: cols' =>
      ((if wrapped_in_brackets c then c else quote_identifier d c)
       ++ opt (match desc with b :: _ => b | [] => false end) (B" DESC"))
      :: write_index_columns d cols' (tl desc)
  end.
Definition write_index (d : dialect) (cur : bytes) (x : index) (concurrently inline : bool) : bytes :=
  let special := is d MySQL && (equal_fold (ix_type x) (B"FULLTEXT") || equal_fold (ix_name x) (B"SPATIAL")) in
  let btree := equal_fold (ix_type x) (B"BTREE") in
  (if ix_unique x then B"UNIQUE " else opt special (ix_type x ++ B" "))
  ++ B"INDEX "
  ++ opt (concurrently && is d Postgres) (B"CONCURRENTLY ")
  ++ quote_identifier d (ix_name x)
  ++ opt (given (ix_type x) && is d MySQL && negb btree && negb special)
       (opt (negb inline) (B" USING") ++ B" " ++ ix_type x)
  ++ opt (negb inline) (B" ON " ++ qtext d (qualify cur (ix_schema x) (ix_table x)))
  ++ opt (given (ix_type x) && is d Postgres && negb btree) (B" USING " ++ ix_type x)
  ++ B" (" ++ join (B", ") (write_index_columns d (ix_columns x) (ix_descending x)) ++ B")"
  ++ opt (negb (none (ix_include x)) && (is d Postgres || is d SQLServer))
       (B" INCLUDE (" ++ write_column_names d (ix_include x) ++ B")")
  ++ opt (given (ix_predicate x) && (is d SQLite || is d Postgres || is d SQLServer)) (B" WHERE " ++ ix_predicate x).
(** strings.Replace with n = 1. *)
Definition replace_first (s a b : bytes) : bytes :=
  match cut a s with Some (x, y) => x ++ b ++ y | None => s end.
(** writeCreateIndex, dump_cmd.go:1095-1109. *)
Definition write_create_index (d : dialect) (cur : bytes) (x : index) (concurrently : bool) : bytes :=
  if given (ix_sql x) then
    (if concurrently && is d Postgres then
       replace_first (ix_sql x) (B"CREATE INDEX " ++ quote_identifier d (ix_name x))
         (B"CREATE INDEX CONCURRENTLY " ++ quote_identifier d (ix_name x))
     else ix_sql x) ++ NL
  else B"CREATE " ++ write_index d cur x concurrently false ++ B";" ++ NL.

(** ** The statements of migrations *)
(** mysql_migration.go:296-325, postgres_migration.go:411-422, sqlserver_migration.go:528-548. *)
Definition write_drop_schema (d : dialect) (n : bytes) : bytes :=
  match d with
  | Postgres => B"DROP SCHEMA IF EXISTS " ++ quote_identifier d n ++ B" CASCADE;" ++ NL
  | SQLServer => B"DROP SCHEMA " ++ quote_identifier d n ++ B";" ++ NL
  | _ => B"DROP SCHEMA IF EXISTS " ++ quote_identifier d n ++ B";" ++ NL
  end.
(** writeCreateSchema, dump_cmd.go:1003-1014, and the same texts in the migrations. *)
Definition write_create_schema (d : dialect) (n : bytes) : bytes :=
  match d with
  | Postgres | MySQL => B"CREATE SCHEMA IF NOT EXISTS " ++ quote_identifier d n ++ B";" ++ NL
  | SQLServer =>
      B"IF SCHEMA_ID('" ++ escape_quote squote n ++ B"') IS NULL EXEC('CREATE SCHEMA "
      ++ escape_quote squote (quote_identifier d n) ++ B"');" ++ NL
  | _ => []
  end.
(** BEGIN .. END of sqlserver_migration.go:688-704. *)
Definition write_drop_default (q : qname) (schema table n : bytes) : bytes :=
  B"BEGIN" ++ NL ++ B"    DECLARE @name NVARCHAR(255);" ++ NL ++ B"    SELECT" ++ NL
  ++ B"        @name = default_constraints.name" ++ NL ++ B"    FROM" ++ NL
  ++ B"        sys.default_constraints" ++ NL
  ++ B"        JOIN sys.tables ON tables.object_id = default_constraints.parent_object_id" ++ NL
  ++ B"        JOIN sys.columns ON columns.column_id = default_constraints.parent_column_id" ++ NL
  ++ B"    WHERE" ++ NL
  ++ B"        SCHEMA_NAME(tables.schema_id) = '" ++ escape_quote squote schema ++ B"'" ++ NL
  ++ B"        AND tables.name = '" ++ escape_quote squote table ++ B"'" ++ NL
  ++ B"        AND columns.name = '" ++ escape_quote squote n ++ B"'" ++ NL
  ++ B"    ;" ++ NL
  ++ B"    EXEC('ALTER TABLE " ++ escape_quote squote (qtext SQLServer q) ++ B" DROP CONSTRAINT ' + @name);" ++ NL
  ++ B"END;" ++ NL.

(** The parts of ALTER TABLE.  [ref] gives the fields of a column about its foreign key. *)
Section Texts.
Context (d : dialect) (cur coll : bytes) (ref : column -> reference).

Definition if_exists : bytes := opt (is d Postgres) (B"IF EXISTS ").
(** Postgres writes the name of an altered column as it is, postgres_migration.go:503. *)
Definition altered (n : bytes) : bytes := match d with Postgres => n | _ => quote_identifier d n end.
Definition write_part (s : stmt) : bytes :=
  match s with
  | QDropConstraint _ c => B"DROP CONSTRAINT " ++ if_exists ++ quote_identifier d (con_name c)
  | QDropCheck _ n => B"DROP CONSTRAINT " ++ quote_identifier d n
  | QDropIndex _ n => B"DROP INDEX " ++ quote_identifier d n
  | QDropColumn _ n => B"DROP COLUMN " ++ if_exists ++ quote_identifier d n
  | QAddColumn _ c =>
      B"ADD " ++ opt (negb (is d SQLServer)) (B"COLUMN ") ++ write_column d coll c (is d SQLite) (ref c)
  | QModifyColumn _ c => B"MODIFY COLUMN " ++ write_column d coll c false no_reference
  | QCreateIndex _ x _ => B"ADD " ++ write_index d cur x false true
  | QSetType _ n ty co null =>
      B"ALTER COLUMN " ++ altered n ++ (match d with Postgres => B" TYPE " | _ => B" " end) ++ ty
      ++ (match co with
          | Some s => B" COLLATE " ++ match d with Postgres => dquote :: escape_quote dquote s ++ [dquote] | _ => escape_quote "["%char s end
          | None => []
          end)
      ++ (match null with Some true => B" NULL" | Some false => B" NOT NULL" | None => [] end)
  | QSetDefault _ n e =>
      match d with
      | SQLServer => B"ADD DEFAULT " ++ e ++ B" FOR " ++ quote_identifier d n
      | _ => B"ALTER COLUMN " ++ altered n ++ B" SET DEFAULT " ++ e
      end
  | QDropDefault _ n => B"ALTER COLUMN " ++ altered n ++ B" DROP DEFAULT"
  | QSetNotNull _ n => B"ALTER COLUMN " ++ altered n ++ B" SET NOT NULL"
  | QDropNotNull _ n => B"ALTER COLUMN " ++ altered n ++ B" DROP NOT NULL"
  | QAddIdentity _ n kind => B"ALTER COLUMN " ++ altered n ++ B" ADD " ++ kind
  | QDropIdentity _ n => B"ALTER COLUMN " ++ altered n ++ B" DROP IDENTITY"
  | QAddCheck _ name n =>
      B"ADD CONSTRAINT " ++ quote_identifier d name ++ B" CHECK (" ++ altered n ++ B" IS NOT NULL) NOT VALID"
  | QAddConstraint _ c nv => B"ADD " ++ write_constraint d cur c ++ opt nv (B" NOT VALID")
  | QAddUsingIndex _ c =>
      B"ADD CONSTRAINT " ++ quote_identifier d (con_name c) ++ B" " ++ con_type c ++ B" USING INDEX "
      ++ quote_identifier d (con_name c)
  | QAlterConstraint _ c =>
      B"ALTER CONSTRAINT " ++ quote_identifier d (con_name c)
      ++ (if con_deferrable c then B" DEFERRABLE" else B" NOT DEFERRABLE") ++ opt (con_deferred c) (B" INITIALLY DEFERRED")
  | QValidate _ n => B"VALIDATE CONSTRAINT " ++ quote_identifier d n
  | QRename _ n => B"RENAME TO " ++ quote_identifier d n
  | _ => []
  end.
Definition table_of (s : stmt) : qname :=
  match s with
  | QDropTable t | QCreateTable t _ | QCopyRows _ t _ | QRename t _ | QCreateIndex t _ _ | QDropIndex t _ | QDropColumn t _
  | QAddColumn t _ | QModifyColumn t _ | QSetType t _ _ _ _ | QSetDefault t _ _ | QDropDefault t _ | QSetNotNull t _
  | QDropNotNull t _ | QAddIdentity t _ _ | QDropIdentity t _ | QAddCheck t _ _ | QAddConstraint t _ _
  | QAddUsingIndex t _ | QAlterConstraint t _ | QValidate t _ | QDropConstraint t _ | QDropCheck t _ => t
  | QDropSchema _ | QCreateSchema _ | QPragma _ => ([], [])
  end.
(** One statement.  SQL Server writes the schema of the altered table into the text for
    QDropDefault; here it is the current schema if the table is not qualified, i.e. catalogs of
    SQL Server are assumed not to have an empty schema. *)
Definition write_stmt (s : stmt) : bytes :=
  match s with
  | QDropSchema n => write_drop_schema d n
  | QCreateSchema n => write_create_schema d n
  | QDropTable t => B"DROP TABLE " ++ opt (is d Postgres || is d MySQL) (B"IF EXISTS ") ++ qtext d t ++ B";" ++ NL
  | QCreateTable _ t => write_create_table d cur coll t true
  | QCopyRows t t' l =>
      B"INSERT INTO " ++ qtext d t' ++ NL ++ B"    (" ++ write_column_names d l ++ B")" ++ NL ++ B"SELECT" ++ NL
      ++ B"    " ++ write_column_names d l ++ NL ++ B"FROM" ++ NL ++ B"    " ++ qtext d t ++ NL ++ B";" ++ NL
  | QCreateIndex _ x conc => write_create_index d cur x conc
  | QDropIndex t n =>
      match d with
      | SQLServer => B"DROP INDEX " ++ quote_identifier d n ++ B" ON " ++ qtext d t ++ B";" ++ NL
      | Postgres => B"DROP INDEX IF EXISTS " ++ qtext d (fst t, n) ++ B";" ++ NL
      | _ => B"DROP INDEX " ++ quote_identifier d n ++ B";" ++ NL
      end
  | QPragma on => B"PRAGMA legacy_alter_table = " ++ (if on then B"ON" else B"OFF") ++ B";" ++ NL
  | QDropDefault t n =>
      match d with
      | SQLServer => write_drop_default t (if given (fst t) then fst t else cur) (snd t) n
      | _ => B"ALTER TABLE " ++ qtext d t ++ B" " ++ write_part s ++ B";" ++ NL
      end
  | _ => B"ALTER TABLE " ++ qtext d (table_of s) ++ B" " ++ write_part s ++ B";" ++ NL
  end.

(** Between the statements of a file there are empty lines, but not within copyTable
    (sqlite_migration.go:385-428) and around SET NOT NULL (postgres_migration.go:655-657). *)
Definition glued (p s : stmt) : bool :=
  match p, s with
  | _, QCopyRows _ _ _ | QCopyRows _ _ _, QDropTable _ | _, QRename _ _ | QValidate _ _, QSetNotNull _ _ | _, QDropCheck _ _ => true
  | _, _ => false
  end.
Fixpoint write_rest (p : stmt) (l : list stmt) : bytes :=
  match l with
  | [] => []
  | s :: l' => opt (negb (glued p s)) NL ++ write_stmt s ++ write_rest s l'
  end.
Definition write_stmts (l : list stmt) : bytes :=
  match l with [] => [] | s :: l' => write_stmt s ++ write_rest s l' end.

(** The single ALTER TABLE of MySQL, mysql_migration.go:385-468. *)
Definition write_alter_mysql (l : list stmt) : bytes :=
  B"ALTER TABLE " ++ qtext d (table_of (hd (QPragma true) l))
  ++ after (NL ++ B"    ") (NL ++ B"    ,") (map write_part l) ++ NL ++ B";" ++ NL.
Definition write_step (p : step) : bytes :=
  if is d MySQL && has_prefix (ps_base p) (B"_alter_") then write_alter_mysql (ps_stmts p) else write_stmts (ps_stmts p).
End Texts.

(** ** The files of a migration *)
(** Results of generate_cmd.go:223-303 with the texts in the files instead of their statements. *)
Record text_file := TextFile { tx_name : bytes; tx_undo : bool; tx_text : bytes }.
Section Files.
Context (d : dialect) (cur coll : bytes) (ref : column -> reference).
Fixpoint texts_from (prefix : bytes) (n : nat) (l : list step) : list text_file :=
  match l with
  | [] => []
  | p :: l' =>
      let start := prefix ++ B"_" ++ pad2 n ++ ps_base p in
      TextFile (start ++ ps_ext p) false (write_step d cur coll ref p)
      :: match ps_undo p with Some u => [TextFile (start ++ B".undo.sql") true (write_stmts d cur coll ref u)] | None => [] end
      ++ texts_from prefix (S n) l'
  end.
End Files.
(** In SQLite there are no schemas and collations, sqlite_migration.go:290-453. *)
Definition current_of (d : dialect) (cat : catalog) : bytes := match d with SQLite => [] | _ => ct_current cat end.
Definition collation_of (d : dialect) (cat : catalog) : bytes := match d with SQLite => [] | _ => ct_collation cat end.
Definition results_text (d : dialect) (flt : bytes -> bool) (ref : column -> reference) (prefix : bytes) (src dest : catalog) (drop : bool)
  : result (list text_file * list warning) :=
  let texts := texts_from d (current_of d src) (collation_of d src) ref prefix 1 in
  match d with
  | SQLite =>
      bindr (new_sqlite_migration src dest drop) (fun p =>
      bindr (sqlite_stmts p) (fun l =>
      Ok (if none l then [] else [TextFile (prefix ++ B".sql") false (write_stmts d [] [] ref l)], [])))
  | MySQL =>
      bindr (new_mysql_migration src dest drop) (fun p =>
      bindr (mysql_warnings (ct_current src) p) (fun w => Ok (texts (mysql_steps (ct_current src) p), w)))
  | Postgres =>
      bindr (new_postgres_migration src dest drop) (fun p =>
      bindr (postgres_steps flt src p) (fun '(l, w) => Ok (texts l, w)))
  | SQLServer =>
      bindr (new_sqlserver_migration src dest drop) (fun p =>
      bindr (sqlserver_steps src p) (fun '(l, w) => Ok (texts l, w)))
  | Other => Err
  end.
