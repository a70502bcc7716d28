(** Model of the methods sql of the four migrations: the files that are generated and the
    statements in them.  Statements are not text but a data type; how names are
    quoted in them is the subject of ModelSq.v.  An ALTER TABLE of MySQL with several
    clauses is a list of statements. *)
From Verif Require Import GoStr ModelCatalog ModelCache ModelDdl ModelDiff.

(** The name of a table as written: the schema is empty if the name is not qualified. *)
Definition qname := (bytes * bytes)%type.
(** E.g. mysql_migration.go:283-286. *)
Definition qualify (cur s t : bytes) : qname :=
  if negb (is_empty s) && negb (beqb s cur) then (s, t) else ([], t).

Inductive stmt :=
| QDropSchema (n : bytes)
| QCreateSchema (n : bytes)
| QDropTable (t : qname)
| QCreateTable (t : qname) (def : table)          (* columns and constraints as writeCreateTable prints them *)
| QCopyRows (src dest : qname) (columns : list bytes)
| QRename (t : qname) (n : bytes)
| QCreateIndex (t : qname) (x : index) (concurrently : bool)
| QDropIndex (t : qname) (n : bytes)              (* the schema of t is that of the index *)
| QDropColumn (t : qname) (n : bytes)
| QAddColumn (t : qname) (c : column)
| QModifyColumn (t : qname) (c : column)          (* MySQL: the whole definition *)
| QSetType (t : qname) (n ty : bytes) (coll : option bytes) (null : option bool)
| QSetDefault (t : qname) (n def : bytes)
| QDropDefault (t : qname) (n : bytes)
| QSetNotNull (t : qname) (n : bytes)
| QDropNotNull (t : qname) (n : bytes)
| QAddIdentity (t : qname) (n kind : bytes)
| QDropIdentity (t : qname) (n : bytes)
| QAddCheck (t : qname) (name col : bytes)        (* CHECK (col IS NOT NULL) NOT VALID *)
| QAddConstraint (t : qname) (c : constraint) (not_valid : bool)
| QAddUsingIndex (t : qname) (c : constraint)
| QAlterConstraint (t : qname) (c : constraint)
| QValidate (t : qname) (n : bytes)
| QDropConstraint (t : qname) (c : constraint)    (* only the name of c is written *)
| QDropCheck (t : qname) (name : bytes)           (* DROP CONSTRAINT for the constraint of QAddCheck *)
| QPragma (on : bool).

Inductive reason := Unsafe | Narrower | LessPrecise | OtherScale | AcrossLimit | OldDefault | OldIdentity | OldNotNull | NoIdentity.
Record warning := Warning { wn_table : qname; wn_column : bytes; wn_reason : reason }.

(** A file with the number that is written into its name.  A step of the migration is a
    file and perhaps an undo file with the same number. *)
Record step := Step { ps_base : bytes; ps_ext : bytes; ps_stmts : list stmt; ps_undo : option (list stmt) }.
Record file := File { fl_name : bytes; fl_undo : bool; fl_stmts : list stmt }.
(** fmt.Sprintf("%02d", n). *)
Definition pad2 (n : nat) : bytes := if n <? 10 then B"0" ++ nat_dec n else nat_dec n.
Fixpoint number_from (prefix : bytes) (n : nat) (l : list step) : list file :=
  match l with
  | [] => []
  | p :: l' =>
      let start := prefix ++ B"_" ++ pad2 n ++ ps_base p in
      File (start ++ ps_ext p) false (ps_stmts p)
      :: match ps_undo p with Some u => [File (start ++ B".undo.sql") true u] | None => [] end
      ++ number_from prefix (S n) l'
  end.
Definition number (prefix : bytes) (l : list step) : list file := number_from prefix 1 l.

(** strings.ReplaceAll(s, " ", "_"). *)
Definition under (s : bytes) : bytes := replace_byte SPACE (B"_") s.

(** strconv.Atoi with the error ignored. *)
Fixpoint digits_only (s : bytes) : bool :=
  match s with [] => true | c :: s' => is_digit c && digits_only s' end.
Definition atoi (s : bytes) : Z :=
  let clamp z := Z.max (- 2 ^ 63) (Z.min (2 ^ 63 - 1) z) in
  let value s := match dec_N s with Some n => Z.of_N n | None => 0%Z end in
  match s with
  | c :: s' =>
      if ceqb c "-"%char then (if digits_only s' then clamp (- value s')%Z else 0%Z)
      else if ceqb c "+"%char then (if digits_only s' then clamp (value s') else 0%Z)
      else if digits_only s then clamp (value s) else 0%Z
  | [] => 0%Z
  end.

(** Table with its indexes, e.g. mysql_migration.go:345-353: ignored indexes are created too. *)
Definition create_with_indexes (cur : bytes) (t : table) : list stmt :=
  QCreateTable (qualify cur (tb_schema t) (tb_name t)) t
  :: map (fun x => QCreateIndex (qualify cur (ix_schema x) (ix_table x)) x false) (tb_indexes t).
Definition at_table (cur : bytes) (t : table) : qname := qualify cur (tb_schema t) (tb_name t).
Definition at_owner (cur : bytes) (c : constraint) : qname := qualify cur (con_schema c) (con_table c).

Definition in_file {A} (l : list A) (p : step) : list step := if none l then [] else [p].
Definition step_if (b : bool) (p : step) : list step := if b then [p] else [].

(** ** mysqlMigration.sql, mysql_migration.go:270-485 *)
Definition warn_mysql (at_ : qname) (a b : column) : result (list warning) :=
  (* mysql_migration.go:424-444 *)
  bindr (normalize_column_type MySQL (col_type a)) (fun '(t1, a1, b1) =>
  bindr (normalize_column_type MySQL (col_type b)) (fun '(t2, a2, b2) =>
  Ok (if teqb (t1, a1, b1) (t2, a2, b2) then []
      else if beqb t1 (B"VARCHAR") && beqb t2 (B"VARCHAR") then
        let m := atoi a1 in let n := atoi a2 in
        if (0 <? m)%Z && (0 <? n)%Z then
          if (m <=? 255)%Z && (255 <? n)%Z then [Warning at_ (col_name b) AcrossLimit]
          else if (255 <? m)%Z && (n <=? 255)%Z then [Warning at_ (col_name b) AcrossLimit]
          else []
        else []
      else [Warning at_ (col_name b) Unsafe]))).

Definition alter_stmts_mysql (cur : bytes) (a : alter) : list stmt :=
  let t := qualify cur (al_schema a) (al_table a) in
  map (QDropConstraint t) (al_drop_constraints a)
  ++ map (fun x => QDropIndex t (ix_name x)) (al_drop_indexes a)
  ++ map (fun c => QDropColumn t (col_name c)) (al_drop_columns a)
  ++ map (QAddColumn t) (al_add_columns a)
  ++ map (fun p => QModifyColumn t (snd p)) (al_alter_columns a)
  ++ map (fun x => QCreateIndex t x false) (al_create_indexes a)
  ++ map (fun c => QAddConstraint t c false) (al_add_constraints a).

Definition table_part (cur s t : bytes) : bytes :=
  if negb (is_empty s) && negb (beqb s cur) then under s ++ B"_" ++ under t else under t.

Definition mysql_steps (cur : bytes) (p : plan) : list step :=
  map (fun c => Step (B"_drop_" ++ under (con_name c)) (B".sql") [QDropConstraint (at_owner cur c) c] None)
    (concat (gr_list (pl_drop_fkeys p)))
  ++ step_if (negb (none (pl_drop_schemas p)) || negb (none (pl_create_schemas p)))
       (Step (B"_schemas") (B".sql")
          (map (fun s => QDropSchema (sc_name s)) (pl_drop_schemas p) ++ map QCreateSchema (pl_create_schemas p))
          (if none (pl_create_schemas p) then None else Some (map QDropSchema (pl_create_schemas p))))
  ++ step_if (negb (none (pl_drop_tables p)) || negb (none (pl_create_tables p)))
       (Step (B"_tables") (B".sql")
          (map (fun t => QDropTable (at_table cur t)) (pl_drop_tables p)
           ++ flat_map (create_with_indexes cur) (pl_create_tables p))
          (if none (pl_create_tables p) then None
           else Some (map (fun t => QDropTable (at_table cur t)) (pl_create_tables p))))
  ++ map (fun a => Step (B"_alter_" ++ table_part cur (al_schema a) (al_table a)) (B".sql") (alter_stmts_mysql cur a) None)
       (pl_alters p)
  ++ map (fun c => Step (B"_add_" ++ under (con_name c)) (B".sql") [QAddConstraint (at_owner cur c) c false] None)
       (concat (gr_list (pl_add_fkeys p))).

Definition mysql_warnings (cur : bytes) (p : plan) : result (list warning) :=
  flatr (fun a => flatr (fun '(c, d) => warn_mysql (qualify cur (al_schema a) (al_table a)) c d) (al_alter_columns a))
    (pl_alters p).

(** ** postgresMigration.sql, postgres_migration.go:368-796 *)
(** The text between _drop_ or _add_ and _fkeys, postgres_migration.go:376-386: the names of
    the tables of the first key of the group. *)
Definition pair_part (cur : bytes) (c : constraint) : bytes :=
  table_part cur (con_schema c) (con_table c) ++ B"_" ++ table_part cur (con_refschema c) (con_reftable c).
Definition first_key (l : list constraint) : constraint := hd (new_constraint (Table [] [] [] false [] [] [] false) [] [] []) l.
Definition group_at (cur : bytes) (l : list constraint) : qname := at_owner cur (first_key l).

(** isLiteral, ddl.go:617-640; [flt] stands for strconv.ParseFloat. *)
Definition is_literal (flt : bytes -> bool) (s : bytes) : bool :=
  let n := List.length s in
  ((2 <=? n) && match s, last_byte s with c :: _, Some e => ceqb c squote && ceqb e squote | _, _ => false end)
  || existsb (fun w => equal_fold s (B w)) ["TRUE"; "FALSE"; "CURRENT_DATE"; "CURRENT_TIME"; "CURRENT_TIMESTAMP"; "NULL"]%string
  || flt s.

Definition old (cat : catalog) (v : Z) : bool := lower_than (map Z.of_nat (ct_version cat)) [v].

(** ADD COLUMN, postgres_migration.go:488-498. *)
Definition warn_add (cat : catalog) (at_ : qname) (c : column) : list warning :=
  if negb (is_empty (col_default c)) && old cat 11 then [Warning at_ (col_name c) OldDefault]
  else if negb (is_empty (col_identity c)) && old cat 11 then [Warning at_ (col_name c) OldIdentity]
  else [].

(** The switch of postgres_migration.go:527-555. *)
Definition warn_type (at_ : qname) (n : bytes) (a b : bytes * bytes * bytes) : list warning :=
  let '(t1, a1, b1) := a in let '(t2, a2, b2) := b in
  let is x y := beqb t1 (B x) && beqb t2 (B y) in
  if is "CIDR"%string "INET"%string || is "VARCHAR"%string "TEXT"%string then []
  else if is "TEXT"%string "VARCHAR"%string then
    if is_empty a2 then [] else [Warning at_ n Unsafe]
  else if is "VARCHAR"%string "VARCHAR"%string then
    let m := atoi a1 in let k := atoi a2 in
    if (0 <? m)%Z && (0 <? k)%Z && (k <? m)%Z then [Warning at_ n Narrower] else []
  else if is "NUMERIC"%string "NUMERIC"%string then
    (let s1 := atoi b1 in let s2 := atoi b2 in
     if negb (s1 =? s2)%Z && negb (s2 =? 0)%Z then [Warning at_ n OtherScale] else [])
    ++ (let m := atoi a1 in let k := atoi a2 in
        if (0 <? m)%Z && (0 <? k)%Z && (k <? m)%Z then [Warning at_ n LessPrecise] else [])
  else [Warning at_ n Unsafe].

(** One altered column, postgres_migration.go:500-640. *)
Definition check_name (c : column) : bytes := col_table c ++ B"_" ++ col_name c ++ B"_not_null_check".
Definition alter_column_postgres (flt : bytes -> bool) (cat : catalog) (at_ : qname) (a b : column)
  : result (list stmt * list warning) :=
  let n := col_name b in
  bindr (normalize_column_type Postgres (col_type a)) (fun ta =>
  bindr (normalize_column_type Postgres (col_type b)) (fun tb =>
  let coll := ct_collation cat in
  let '(types, warns) :=
    if teqb ta tb then
      ((if same_collation coll (col_collation a) (col_collation b) then []
        else [QSetType at_ n (col_type b) (Some (col_collation b)) None]), [])
    else
      ([QSetType at_ n (col_type b)
          (if negb (is_empty (col_collation b)) && negb (beqb (col_collation b) coll) then Some (col_collation b) else None) None],
       warn_type at_ n ta tb) in
  let da := normalize_column_default Postgres (col_default a) in
  let db := normalize_column_default Postgres (col_default b) in
  let defaults :=
    if negb (is_empty da) && is_empty db then [QDropDefault at_ n]
    else if (is_empty da && negb (is_empty db))
            || (is_literal flt da && is_literal flt db && negb (beqb da db)) then [QSetDefault at_ n db]
    else [] in
  let '(nulls, warns2) :=
    if col_notnull a && negb (col_notnull b) then ([QDropNotNull at_ n], [])
    else if negb (col_notnull a) && col_notnull b then
      if old cat 12 then ([QSetNotNull at_ n], [Warning at_ n OldNotNull])
      else ([QAddCheck at_ (check_name b) n], [])
    else ([], []) in
  let identities :=
    if negb (is_empty (col_identity a)) && is_empty (col_identity b) then [QDropIdentity at_ n]
    else if is_empty (col_identity a) && negb (is_empty (col_identity b)) then [QAddIdentity at_ n (col_identity b)]
    else [] in
  Ok (types ++ defaults ++ nulls ++ identities, warns ++ warns2))).

Definition key_index (c : constraint) : index :=
  Index (con_schema c) (con_table c) (con_name c) [] true (con_columns c) [] [] [] [] [] false.

(** One altered table, postgres_migration.go:446-722. *)
Definition alter_steps_postgres (flt : bytes -> bool) (cat : catalog) (a : alter) : result (list step * list warning) :=
  let cur := ct_current cat in
  let t := qualify cur (al_schema a) (al_table a) in
  let name := table_part cur (al_schema a) (al_table a) in
  bindr (flatr (fun '(c, d) => bindr (alter_column_postgres flt cat t c d) (fun r => Ok [r])) (al_alter_columns a)) (fun rs =>
  let at_index (s : bytes) := fst (qualify cur s []) in
  let drop_index (s n : bytes) := QDropIndex (at_index s, al_table a) n in
  Ok (Step (B"_alter_" ++ name) (B".tx.sql")
        (map (fun x => drop_index (ix_schema x) (ix_name x)) (al_drop_indexes a)
         ++ map (QDropConstraint t) (al_drop_constraints a)
         ++ map (fun c => QDropColumn t (col_name c)) (al_drop_columns a)
         ++ map (QAddColumn t) (al_add_columns a)
         ++ flat_map fst rs
         ++ map (fun p => QAlterConstraint t (snd p)) (al_alter_constraints a)) None
      :: in_file (al_validate a)
           (Step (B"_validate_" ++ name ++ B"_not_null") (B".tx.sql")
              (flat_map (fun c => [QValidate t (check_name c); QSetNotNull t (col_name c); QDropCheck t (check_name c)])
                 (al_validate a)) None)
      ++ map (fun x => Step (B"_create_" ++ under (ix_name x)) (B".txoff.sql")
                         [QCreateIndex (qualify cur (ix_schema x) (ix_table x)) x true]
                         (Some [drop_index (ix_schema x) (ix_name x)])) (al_create_indexes a)
      ++ flat_map (fun c =>
           [Step (B"_create_" ++ under (con_name c)) (B".txoff.sql")
              [QCreateIndex (at_owner cur c) (key_index c) true] (Some [drop_index (con_schema c) (con_name c)]);
            Step (B"_add_" ++ under (con_name c)) (B".tx.sql") [QAddUsingIndex t c] None]) (al_add_constraints a),
      flat_map (warn_add cat t) (al_add_columns a) ++ flat_map snd rs)).

Definition postgres_steps (flt : bytes -> bool) (cat : catalog) (p : plan) : result (list step * list warning) :=
  let cur := ct_current cat in
  bindr (flatr (fun a => bindr (alter_steps_postgres flt cat a) (fun r => Ok [r])) (pl_alters p)) (fun alters =>
  Ok (map (fun l => Step (B"_drop_" ++ pair_part cur (first_key l) ++ B"_fkeys") (B".tx.sql")
                      (map (QDropConstraint (group_at cur l)) l) None)
        (gr_list (pl_drop_fkeys p))
      ++ step_if (negb (none (pl_drop_schemas p)) || negb (none (pl_create_schemas p)))
           (Step (B"_schemas") (B".sql")
              (map (fun s => QDropSchema (sc_name s)) (pl_drop_schemas p) ++ map QCreateSchema (pl_create_schemas p)) None)
      ++ step_if (negb (none (pl_drop_tables p)) || negb (none (pl_create_tables p)))
           (Step (B"_tables") (B".sql")
              (map (fun t => QDropTable (at_table cur t)) (pl_drop_tables p)
               ++ flat_map (create_with_indexes cur) (pl_create_tables p)) None)
      ++ flat_map fst alters
      ++ map (fun l => Step (B"_add_" ++ pair_part cur (first_key l) ++ B"_fkeys") (B".tx.sql")
                         (map (fun c => QAddConstraint (group_at cur l) c false) l) None)
           (gr_list (pl_fast_fkeys p))
      ++ flat_map (fun l =>
           [Step (B"_add_" ++ pair_part cur (first_key l) ++ B"_fkeys") (B".tx.sql")
              (map (fun c => QAddConstraint (group_at cur l) c true) l) None;
            Step (B"_validate_" ++ pair_part cur (first_key l) ++ B"_fkeys") (B".tx.sql")
              (map (fun c => QValidate (group_at cur l) (con_name c)) l) None])
           (gr_list (pl_add_fkeys p)),
      flat_map snd alters)).

(** ** sqlserverMigration.sql, sqlserver_migration.go:447-790 *)
(** getTablesName, sqlserver_migration.go:451-464: spaces are kept. *)
Definition raw_part (cur s t : bytes) : bytes :=
  if negb (is_empty s) && negb (beqb s cur) then s ++ B"_" ++ t else t.
Definition raw_pair (cur : bytes) (c : constraint) : bytes :=
  raw_part cur (con_schema c) (con_table c) ++ B"_" ++ raw_part cur (con_refschema c) (con_reftable c).

(** One altered column, sqlserver_migration.go:633-711. *)
Definition alter_column_sqlserver (cat : catalog) (pkey : option constraint) (t : qname) (a b : column)
  : result (list stmt * list warning) :=
  let n := col_name b in
  bindr (same_type SQLServer (col_type a) (col_type b)) (fun same =>
  let coll := if negb (is_empty (col_collation b)) && negb (beqb (col_collation b) (ct_collation cat))
              then Some (col_collation b) else None in
  let in_key := match pkey with Some c => bmem n (con_columns c) | None => false end in
  let null :=
    if in_key || negb (is_empty (col_identity b)) then Some false
    else if col_notnull a && negb (col_notnull b) then
      if col_notnull b then Some false else Some true
    else None in
  let types :=
    if negb same || negb (is_none coll) || negb (is_none null) then [QSetType t n (col_type b) coll null] else [] in
  let warns := if same then [] else [Warning t n Unsafe] in
  let da := normalize_column_default SQLServer (col_default a) in
  let db := normalize_column_default SQLServer (col_default b) in
  let defaults :=
    if beqb da db then []
    else (if is_empty da then [] else [QDropDefault t n]) ++ (if is_empty db then [] else [QSetDefault t n db]) in
  Ok (types ++ defaults, warns)).

(** One altered table, sqlserver_migration.go:566-746. *)
Definition alter_steps_sqlserver (cat : catalog) (a : alter) : result (list step * list warning) :=
  let cur := ct_current cat in
  let t := qualify cur (al_schema a) (al_table a) in
  bindr (flatr (fun '(c, d) => bindr (alter_column_sqlserver cat (al_pkey a) t c d) (fun r => Ok [r])) (al_alter_columns a)) (fun rs =>
  Ok (Step (B"_alter_" ++ raw_part cur (al_schema a) (al_table a)) (B".tx.sql")
        (map (fun x => QDropIndex (qualify cur (ix_schema x) (ix_table x)) (ix_name x)) (al_drop_indexes a)
         ++ map (QDropConstraint t) (al_drop_constraints a)
         ++ map (fun c => QDropColumn t (col_name c)) (al_drop_columns a)
         ++ map (QAddColumn t) (al_add_columns a)
         ++ flat_map fst rs) None
      :: map (fun x => Step (B"_create_" ++ ix_name x) (B".tx.sql")
                         [QCreateIndex (qualify cur (ix_schema x) (ix_table x)) x false] None) (al_create_indexes a)
      ++ map (fun c => Step (B"_add_" ++ con_name c) (B".tx.sql") [QAddConstraint t c false] None) (al_add_constraints a),
      flat_map snd rs)).

(** Views and routines of a dropped schema are not modelled, sqlserver_migration.go:500-526. *)
Definition drop_schema_stmts (cur : bytes) (s : schema) : list stmt :=
  map (fun t => QDropTable (qualify cur (sc_name s) (tb_name t))) (sc_tables s) ++ [QDropSchema (sc_name s)].

Definition sqlserver_steps (cat : catalog) (p : plan) : result (list step * list warning) :=
  let cur := ct_current cat in
  bindr (flatr (fun a => bindr (alter_steps_sqlserver cat a) (fun r => Ok [r])) (pl_alters p)) (fun alters =>
  let keys (l : list constraint) :=
    Step (B"_add_" ++ raw_pair cur (first_key l) ++ B"_fkeys") (B".tx.sql")
      (map (fun c => QAddConstraint (at_owner cur c) c false) l) None in
  Ok (map (fun l => Step (B"_drop_" ++ raw_pair cur (first_key l) ++ B"_fkeys") (B".tx.sql")
                      (map (fun c => QDropConstraint (at_owner cur c) c) l) None)
        (gr_list (pl_drop_fkeys p))
      ++ map (fun s => Step (B"_drop_" ++ sc_name s) (B".sql") (drop_schema_stmts cur s) None) (pl_drop_schemas p)
      ++ in_file (pl_create_schemas p) (Step (B"_create_schemas") (B".sql") (map QCreateSchema (pl_create_schemas p)) None)
      ++ step_if (negb (none (pl_drop_tables p)) || negb (none (pl_create_tables p)))
           (Step (B"_tables") (B".sql")
              (map (fun t => QDropTable (at_table cur t)) (pl_drop_tables p)
               ++ flat_map (create_with_indexes cur) (pl_create_tables p)) None)
      ++ flat_map fst alters
      ++ map keys (gr_list (pl_fast_fkeys p))
      ++ map keys (gr_list (pl_add_fkeys p)),
      map (fun '(s, t, n) => Warning (qualify cur s t) n NoIdentity) (pl_warnings p) ++ flat_map snd alters)).

(** ** sqliteMigration.sql, sqlite_migration.go:247-453 *)
(** A constraint that can only be changed by copying the table, sqlite_migration.go:271-288. *)
Definition needs_copy (columns : list bytes) (c : constraint) : result bool :=
  if negb (is_fkey c) || (1 <? List.length (con_columns c)) then Ok true
  else match con_columns c with
       | [] => Panic
       | n :: _ => Ok (negb (bmem n columns))
       end.
Definition copied (a : sqlite_alter) : result bool :=
  if negb (none (sa_alter_columns a)) then Ok true else
  bindr (filterr (needs_copy (sa_is_dropped a)) (sa_drop_constraints a)) (fun l1 =>
  bindr (filterr (needs_copy (sa_is_added a)) (sa_add_constraints a)) (fun l2 =>
  Ok (negb (none l1) || negb (none l2)))).

(** copyTable, sqlite_migration.go:377-453, without triggers.  If the table has the text of
    a CREATE TABLE statement, its name is replaced in this text, which is not modelled. *)
Definition bare (t : bytes) : qname := ([], t).
Definition copy_stmts (s d : table) : list stmt :=
  let t := tb_name d in
  let t' := t ++ B"_new" in
  let dest_columns := map col_name (filter (fun c => negb (col_generated c || negb (is_empty (col_expr c)))) (tb_columns d)) in
  let cols := filter (fun n => bmem n dest_columns) (map col_name (tb_columns s)) in
  [QCreateTable (bare t') (Table (tb_schema d) t' (tb_sql d) (tb_virtual d) (tb_columns d) (tb_constraints d) (tb_indexes d) (tb_ignore d));
   QCopyRows (bare t) (bare t') cols;
   QDropTable (bare t);
   QRename (bare t') t]
  ++ map (fun x => QCreateIndex (bare (ix_table x)) x false) (tb_indexes d).

Definition alter_stmts_sqlite (a : sqlite_alter) (copy : bool) : list stmt :=
  let t := bare (tb_name (sa_dest a)) in
  if copy then copy_stmts (sa_src a) (sa_dest a)
  else map (fun x => QDropIndex t (ix_name x)) (sa_drop_indexes a)
       ++ map (fun c => QDropColumn t (col_name c)) (sa_drop_columns a)
       ++ map (QAddColumn t) (sa_add_columns a)
       ++ map (fun x => QCreateIndex (bare (ix_table x)) x false) (sa_create_indexes a).

Definition sqlite_stmts (p : sqlite_plan) : result (list stmt) :=
  bindr (flatr (fun a => bindr (copied a) (fun b => Ok [(a, b)])) (sp_alters p)) (fun alters =>
  let pragma := existsb snd alters in
  Ok ((if pragma then [QPragma true] else [])
      ++ map (fun t => QDropTable (bare (tb_name t))) (sp_drop_tables p)
      ++ flat_map (fun t => QCreateTable (bare (tb_name t)) t
                            :: map (fun x => QCreateIndex (bare (ix_table x)) x false) (tb_indexes t)) (sp_create_tables p)
      ++ flat_map (fun '(a, b) => alter_stmts_sqlite a b) alters
      ++ (if pragma then [QPragma false] else []))).

(** ** GenerateCmd.Results, generate_cmd.go:223-303 *)
(** The files and warnings for two catalogs.  [flt] is ParseFloat. *)
Definition results (d : dialect) (flt : bytes -> bool) (prefix : bytes) (src dest : catalog) (drop : bool)
  : result (list file * list warning) :=
  match d with
  | SQLite =>
      bindr (new_sqlite_migration src dest drop) (fun p =>
      bindr (sqlite_stmts p) (fun l =>
      Ok (if none l then [] else [File (prefix ++ B".sql") false l], [])))
  | MySQL =>
      bindr (new_mysql_migration src dest drop) (fun p =>
      bindr (mysql_warnings (ct_current src) p) (fun w =>
      Ok (number prefix (mysql_steps (ct_current src) p), w)))
  | Postgres =>
      bindr (new_postgres_migration src dest drop) (fun p =>
      bindr (postgres_steps flt src p) (fun '(l, w) => Ok (number prefix l, w)))
  | SQLServer =>
      bindr (new_sqlserver_migration src dest drop) (fun p =>
      bindr (sqlserver_steps src p) (fun '(l, w) => Ok (number prefix l, w)))
  | Other => Err
  end.
