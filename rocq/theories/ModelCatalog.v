(** The catalog: ddl/ddl.go:48-540.  Views, routines, triggers, enums, domains, extensions
    and comments are left out, as are the fields of a column that repeat its
    single-column foreign key. *)
From Verif Require Import GoStr.

(** Column, ddl.go:285-407. *)
Record column := Column {
  col_schema : bytes; col_table : bytes; col_name : bytes; col_type : bytes;
  col_length : bytes; col_precision : bytes; col_scale : bytes;
  col_domain : bytes; col_enum : bool; col_notnull : bool; col_pkey : bool; col_unique : bool;
  col_autoincrement : bool; col_identity : bytes; col_default : bytes; col_onupdate : bool;
  col_generated : bool; col_expr : bytes; col_stored : bool; col_collation : bytes;
  col_ignore : bool
}.

(** Constraint, ddl.go:409-489. *)
Record constraint := Constraint {
  con_schema : bytes; con_table : bytes; con_name : bytes; con_type : bytes;
  con_columns : list bytes;
  con_refschema : bytes; con_reftable : bytes; con_refcolumns : list bytes;
  con_update : bytes; con_delete : bytes; con_match : bytes; con_check : bytes;
  con_operators : list bytes; con_indextype : bytes; con_predicate : bytes;
  con_deferrable : bool; con_deferred : bool; con_clustered : bool; con_notvalid : bool;
  con_ignore : bool
}.

(** The values of ConstraintType, ddl.go:19-37. *)
Definition PRIMARY_KEY : bytes := B"PRIMARY KEY".
Definition FOREIGN_KEY : bytes := B"FOREIGN KEY".
Definition UNIQUE : bytes := B"UNIQUE".
Definition CHECK : bytes := B"CHECK".

(** Index, ddl.go:491-536. *)
Record index := Index {
  ix_schema : bytes; ix_table : bytes; ix_name : bytes; ix_type : bytes; ix_unique : bool;
  ix_columns : list bytes; ix_include : list bytes; ix_descending : list bool; ix_opclasses : list bytes;
  ix_predicate : bytes; ix_sql : bytes; ix_ignore : bool
}.

(** Table, ddl.go:251-283. *)
Record table := Table {
  tb_schema : bytes; tb_name : bytes; tb_sql : bytes; tb_virtual : bool;
  tb_columns : list column; tb_constraints : list constraint; tb_indexes : list index;
  tb_ignore : bool
}.

(** Schema, ddl.go:87-126. *)
Record schema := Schema { sc_name : bytes; sc_tables : list table; sc_ignore : bool }.

(** Catalog, ddl.go:51-85. *)
Record catalog := Catalog {
  ct_dialect : dialect; ct_version : list nat; ct_current : bytes;
  ct_collation : bytes; ct_schemas : list schema
}.
