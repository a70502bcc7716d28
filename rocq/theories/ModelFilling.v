(** Model of how GetColumns (database_introspector.go:445-647) and its scripts read the columns that fill
    themselves: AUTO_INCREMENT, identities, ON UPDATE CURRENT_TIMESTAMP and expressions.  ModelDdlText.v
    (write_column) has how they are written. *)
From Verif Require Import GoStr ModelSq ModelCatalog ModelDiffSql ModelAnnotate ModelParser.

(** What the scripts find in the tables of the database:
    information_schema.columns.extra and generation_expression (mysql_columns.sql:8-12);
    pg_attribute.attidentity and attgenerated, and pg_get_expr of pg_attrdef (postgres_columns.sql:22-41);
    seed_value and increment_value if is_identity = 1, and sys.computed_columns.definition and is_persisted
    (sqlserver_columns.sql:14-24). *)
Inductive row :=
| MyRow (extra expr : bytes)
| PgRow (ident generated expr : bytes)
| MsRow (ident : option (Z * Z)) (definition : bytes) (persisted : bool).

(** strings.ReplaceAll(s, `\'`, `'`), database_introspector.go:594-596. *)
Fixpoint unescape_quotes (s : bytes) : bytes :=
  match s with
  | [] => []
  | c :: s' =>
      match s' with
      | x :: s'' => if ceqb c "\" && ceqb x squote then squote :: unescape_quotes s'' else c :: unescape_quotes s'
      | [] => [c]
      end
  end.
Definition with_expression (e : bytes) (stored : bool) (c : column) : column :=
  Column (col_schema c) (col_table c) (col_name c) (col_type c) (col_length c) (col_precision c) (col_scale c)
    (col_domain c) (col_enum c) (col_notnull c) (col_pkey c) (col_unique c) (col_autoincrement c)
    (col_identity c) (col_default c) (col_onupdate c) (col_generated c) e stored (col_collation c) (col_ignore c).
(** sqlserver_columns.sql:14-21. *)
Definition identity_text (i : option (Z * Z)) : bytes :=
  match i with
  | None => []
  | Some (s, n) => if (s =? 1)%Z && (n =? 1)%Z then B"IDENTITY" else B"IDENTITY(" ++ itoa s ++ B", " ++ itoa n ++ B")"
  end.
(** The other fields of the column are [c].  information_schema compares texts without regard to case. *)
Definition read_row (r : row) (c : column) : column :=
  match r with
  | MyRow extra expr =>
      with_autoincrement (equal_fold extra (B"auto_increment"))
        (with_onupdate (equal_fold extra (B"DEFAULT_GENERATED on update CURRENT_TIMESTAMP"))
          (with_identity [] (with_expression (unescape_quotes expr) (equal_fold extra (B"STORED GENERATED")) c)))
  | PgRow ident generated expr =>
      with_autoincrement false
        (with_onupdate false
          (with_identity
             (if beqb ident (B"d") then B"GENERATED BY DEFAULT AS IDENTITY"
              else if beqb ident (B"a") then B"GENERATED ALWAYS AS IDENTITY" else [])
             (with_default (if beqb generated (B"s") then [] else expr)
               (with_expression (if beqb generated (B"s") then expr else []) (beqb generated (B"s")) c))))
  | MsRow ident definition persisted =>
      with_autoincrement false
        (with_onupdate false
          (with_identity (identity_text ident) (with_expression definition persisted c)))
  end.
