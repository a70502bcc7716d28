(** What the statements of a migration should say to the database, in terms of SpecDdl.v, and
    for which objects they can be expected to say it. *)
From Verif Require Import GoStr SpecSql SpecInsert SpecTokens SpecDdl ModelCatalog ModelDiff ModelDiffSql ModelDdlText.

(** ** Texts from the catalog *)
Definition text (d : dialect) (s : bytes) : toks := match tokens d s with Some ts => ts | None => [] end.
(** The expression in brackets around all of the text, or the text. *)
Definition inner (ts : toks) : toks := match parens expression ts with Some (e, []) => e | _ => ts end.
(** An expression in place of the name of a column. *)
Definition begins_with (c : ascii) (s : bytes) : bool := match s with x :: _ => ceqb x c | [] => false end.
Definition is_expression (s : bytes) : bool := begins_with "(" s && begins_with ")" (rev s).
Definition rule_of (s : bytes) : rule :=
  if beqb s (B"RESTRICT") then Restrict else if beqb s (B"CASCADE") then Cascade
  else if beqb s (B"SET NULL") then SetNull else if beqb s (B"SET DEFAULT") then SetDefaultValue else NoAction.
Definition path_of (q : qname) : list bytes := match fst q with [] => [snd q] | s => [s; snd q] end.
Definition if_given (s : bytes) : option bytes := match s with [] => None | _ => Some s end.

(** ** Objects *)
Section Meaning.
Context (d : dialect) (cur coll : bytes).

Definition has_defer : bool := match d with SQLite | Postgres => true | _ => false end.
Definition defer_of (a b : bool) : bool * bool := (has_defer && a, has_defer && a && b).
(** A column of SQL Server with an expression has no type and is not said to be NOT NULL. *)
Definition computed (c : column) : bool := match d, col_expr c with SQLServer, _ :: _ => true | _, _ => false end.
Definition type_of (c : column) : toks :=
  map up (text d (match col_domain c with [] => if computed c then [] else col_type c | s => s end)).
Definition identity_of (s : bytes) : option identity :=
  match read_identity d (text d s) with Some (i, []) => Some i | _ => None end.
Definition generated_of (c : column) : option (toks * bool) :=
  match col_expr c with [] => None | e => Some (inner (text d e), col_stored c) end.
Definition refers_of (schema : bytes) (r : reference) : option refers :=
  match rf_table r, rf_column r with
  | _ :: _, _ :: _ =>
      Some (Refers (path_of (if beqb (rf_schema r) schema then [] else rf_schema r, rf_table r)) [rf_column r]
              (rule_of (rf_update r), rule_of (rf_delete r)) (defer_of (rf_deferrable r) (rf_deferred r)))
  | _, _ => None
  end.
(** [level]: with the constraints of the column. *)
Definition column_meant (level : bool) (r : reference) (c : column) : column_def :=
  ColumnDef (col_name c) (type_of c)
    (col_pkey c && (level || match d with SQLite => true | _ => false end))
    (col_autoincrement c && match d with SQLite | MySQL => true | _ => false end)
    (col_notnull c && negb (computed c))
    (col_unique c && level)
    (match d with Postgres | SQLServer => identity_of (col_identity c) | _ => None end)
    (match col_default c with [] => None | e => Some (text d e) end)
    (col_onupdate c && match d with MySQL => true | _ => false end)
    (if beqb (col_collation c) coll then None else if_given (col_collation c))
    (generated_of c)
    (if level then refers_of (col_schema c) r else None).

(** The referenced table with its schema, if that is not the current one.  In MySQL the schema of
    the table with the key is taken if none is given. *)
Definition target_of (c : constraint) : list bytes :=
  if beqb (con_refschema c) cur || match con_refschema c with [] => true | _ => false end then
    match d with
    | MySQL => if beqb (con_schema c) (con_refschema c) then [con_reftable c] else path_of (cur, con_reftable c)
    | _ => [con_reftable c]
    end
  else [con_refschema c; con_reftable c].
Fixpoint exclusions (cols ops : list bytes) : list (toks * toks) :=
  match cols with
  | c :: cols' => (text d c, text d (hd [] ops)) :: exclusions cols' (tl ops)
  | [] => []
  end.
Definition body_of (c : constraint) : body :=
  if beqb (con_type c) PRIMARY_KEY then BPrimary (con_columns c)
  else if beqb (con_type c) UNIQUE then BUnique (con_columns c)
  else if beqb (con_type c) CHECK then BCheck (text d (con_check c))
  else if beqb (con_type c) FOREIGN_KEY then
    BForeign (con_columns c) (target_of c) (con_refcolumns c) (beqb (con_match c) (B"MATCH FULL"))
      (rule_of (con_update c), rule_of (con_delete c))
  else BExclude (option_map to_upper (if_given (con_indextype c))) (exclusions (con_columns c) (con_operators c))
         (option_map (text d) (if_given (con_predicate c))).
(** The name of a primary key is not written in MySQL: it is always PRIMARY. *)
Definition constraint_meant (c : constraint) : constraint_def :=
  ConstraintDef (match d with MySQL => if beqb (con_type c) PRIMARY_KEY then None else if_given (con_name c) | _ => if_given (con_name c) end)
    (body_of c)
    (if beqb (con_type c) CHECK then (false, false) else defer_of (con_deferrable c) (con_deferred c)).

(** The kind of an index in MySQL and SQL Server, or its method. *)
Definition kind_of (x : index) : option bytes :=
  let ty := to_upper (ix_type x) in
  match d with
  | MySQL => if bmem ty [B"FULLTEXT"; B"SPATIAL"] then Some ty else None
  | SQLServer => if bmem ty [[]; B"NONCLUSTERED"] then None else Some ty
  | _ => None
  end.
Definition method_of (x : index) : option bytes :=
  let ty := to_upper (ix_type x) in
  match d with
  | MySQL => if bmem ty [[]; B"BTREE"; B"FULLTEXT"; B"SPATIAL"] then None else Some ty
  | Postgres => if bmem ty [[]; B"BTREE"] then None else Some ty
  | _ => None
  end.
Fixpoint parts_of (cols : list bytes) (desc : list bool) (classes : list bytes) : list part :=
  match cols with
  | c :: cols' =>
      Part (if is_expression c then EExpr (inner (text d c)) else EName c)
        (match d with Postgres => if_given (hd [] classes) | _ => None end) (hd false desc)
      :: parts_of cols' (tl desc) (tl classes)
  | [] => []
  end.
Definition index_meant (q : option qname) (conc : bool) (x : index) : index_def :=
  IndexDef (ix_unique x) (kind_of x) (conc && match d with Postgres => true | _ => false end) (ix_name x) (method_of x)
    (option_map path_of q)
    (parts_of (ix_columns x) (ix_descending x) (ix_opclasses x))
    (match d with Postgres | SQLServer => ix_include x | _ => [] end)
    (match d with MySQL => None | _ => option_map (text d) (if_given (ix_predicate x)) end).

(** The columns and constraints of a new table: columns that are left out, and foreign keys,
    which are added later except in SQLite, where a primary key of one column belongs to the column. *)
Definition table_columns (t : table) : list column :=
  filter (fun c => negb (col_ignore c) && negb (col_generated c && match col_expr c with [] => true | _ => false end)) (tb_columns t).
Definition table_constraints (t : table) : list constraint :=
  filter (fun c => negb (con_ignore c)
    && match d with
       | SQLite => negb (beqb (con_type c) PRIMARY_KEY) || negb (List.length (con_columns c) =? 1)
       | _ => negb (beqb (con_type c) FOREIGN_KEY)
       end) (tb_constraints t).
(** n IS NOT NULL *)
Definition not_null (n : bytes) : toks := [Word n; Word (B"IS"); Word (B"NOT"); Word (B"NULL")].

(** ** Statements *)
Context (ref : column -> reference).
Definition sqlite : bool := match d with SQLite => true | _ => false end.
Definition action_of (s : stmt) : option (qname * action) :=
  match s with
  | QDropConstraint t c => Some (t, ADropConstraint (con_name c))
  | QDropCheck t n => Some (t, ADropConstraint n)
  | QDropColumn t n => Some (t, ADropColumn n)
  | QAddColumn t c => Some (t, AAddColumn (column_meant sqlite (ref c) c))
  | QModifyColumn t c => Some (t, AModifyColumn (column_meant false no_reference c))
  | QSetType t n ty co null => Some (t, ASetType n (map up (text d ty)) co null)
  | QSetDefault t n e => Some (t, ASetDefault n (text d e))
  | QDropDefault t n => Some (t, ADropDefault n)
  | QSetNotNull t n => Some (t, ASetNotNull n)
  | QDropNotNull t n => Some (t, ADropNotNull n)
  | QAddIdentity t n k => option_map (fun i => (t, AAddIdentity n i)) (identity_of k)
  | QDropIdentity t n => Some (t, ADropIdentity n)
  | QAddCheck t name n => Some (t, AAddConstraint (ConstraintDef (Some name) (BCheck (not_null n)) (false, false)) true)
  | QAddConstraint t c nv => Some (t, AAddConstraint (constraint_meant c) nv)
  | QAddUsingIndex t c => Some (t, AAddUsingIndex (con_name c) (beqb (con_type c) PRIMARY_KEY) (con_name c))
  | QAlterConstraint t c => Some (t, AAlterConstraint (con_name c) (con_deferrable c) (con_deferred c))
  | QValidate t n => Some (t, AValidate n)
  | QRename t n => Some (t, ARename n)
  | _ => None
  end.
Definition meant (s : stmt) : option statement :=
  match s with
  | QDropSchema n => Some (DropSchema n (match d with Postgres => true | _ => false end))
  | QCreateSchema n => Some (CreateSchema n)
  | QDropTable q => Some (DropTable (path_of q))
  | QCreateTable q t =>
      Some (CreateTable (path_of q) (map (column_meant false no_reference) (table_columns t)) (map constraint_meant (table_constraints t)))
  | QCopyRows q q' l => Some (CopyRows (path_of q) (path_of q') l l)
  | QCreateIndex q x conc => Some (CreateIndex (index_meant (Some q) conc x))
  | QDropIndex q n =>
      Some (match d with
            | SQLServer | MySQL => DropIndex [n] (Some (path_of q))
            | _ => DropIndex (path_of (fst q, n)) None
            end)
  | QPragma on => Some (LegacyAlterTable on)
  | _ => option_map (fun '(t, a) => AlterTable (path_of t) a) (action_of s)
  end.
(** Two ways of writing the same. *)
Definition plainly (s : statement) : statement :=
  match s with
  | AlterTable p (AAddIndex x) =>
      CreateIndex (IndexDef (xd_unique x) (xd_kind x) (xd_concurrently x) (xd_name x) (xd_using x) (Some p)
                     (xd_elements x) (xd_include x) (xd_where x))
  | AlterTable p (ADropIndex n) => DropIndex [n] (Some p)
  | _ => s
  end.

(** ** Objects that can be written *)
(** Names that are read as they are meant (C02). *)
Definition plain_name (n : bytes) : Prop :=
  ~ In n (map B ["EXCLUDED"; "INSERTED"; "DELETED"; "NEW"; "OLD"]%string)
  /\ ~ exists a c b, n = a ++ id_close d :: id_close d :: c :: b.
Definition plain_names_ (l : list bytes) : Prop := l <> [] /\ forall n, In n l -> plain_name n.
Definition plain_table (q : qname) : Prop := plain_name (fst q) /\ plain_name (snd q).
(** Tokens with matching brackets, none of which ends them early. *)
Fixpoint whole (stop : list bytes) (n : nat) (ts : toks) : bool :=
  match ts with
  | [] => n =? 0
  | t :: r => negb ((n =? 0) && ends_run stop t) && whole stop (deeper n t) r
  end.
Definition fits (stop : list bytes) (s : bytes) : Prop :=
  exists ts, tokens d s = Some ts /\ ts <> [] /\ whole stop 0 ts = true.
(** A default: any word may come first, e.g. NULL. *)
Definition fits_operand (stop : list bytes) (s : bytes) : Prop :=
  exists t ts, tokens d s = Some (t :: ts) /\ ends_run [] t = false /\ whole stop (deeper 0 t) ts = true.
(** Brackets around the whole of the text, if it begins and ends with one. *)
Definition bracketed (s : bytes) : Prop :=
  if is_expression s then exists ts e, tokens d s = Some ts /\ parens expression ts = Some (e, [])
  else fits [] s /\ inner (text d s) = text d s.
(** Types are written in upper case, so they must not contain names in quotes or strings. *)
Definition plain_token (t : token) : bool := match t with Word _ | Num _ | Sym _ => true | _ => false end.
Definition begins_type (ts : toks) : bool := match ts with t :: _ => negb (is_sym "(" t || is_word [B"USING"] t) | [] => true end.
Definition fits_type (c : column) : Prop :=
  match col_domain c, col_type c with
  | [], [] => True
  | [], ty => fits clauses ty /\ begins_type (text d ty) = true /\ (col_enum c = true \/ forallb plain_token (text d ty) = true)
  | dm, _ => fits clauses dm /\ begins_type (text d dm) = true
  end.
(** A name that is written without quotes. *)
Definition raw_name (n : bytes) : Prop := exists t, tokens d n = Some [t] /\ name_token d t = Some n.
Definition raw_word (n : bytes) : Prop := tokens d n = Some [Word n] /\ name_token d (Word n) = Some n.
Definition fits_identity (s : bytes) : Prop :=
  s <> [] -> exists ts i, tokens d s = Some ts /\ read_identity d ts = Some (i, []) /\ whole clauses 0 (id_options i) = true.
Definition fits_rule (s : bytes) : Prop := In s (map B [""; "NO ACTION"; "RESTRICT"; "CASCADE"; "SET NULL"; "SET DEFAULT"]%string).
Definition writable_reference (r : reference) : Prop :=
  plain_name (rf_schema r) /\ plain_name (rf_table r) /\ plain_name (rf_column r) /\ fits_rule (rf_update r) /\ fits_rule (rf_delete r).

Record writable_column (level : bool) (r : reference) (c : column) : Prop := {
  wc_name : plain_name (col_name c);
  wc_type : fits_type c;
  wc_identity : match d with Postgres | SQLServer => fits_identity (col_identity c) | _ => True end;
  wc_default : col_default c <> [] -> fits_operand clauses (col_default c);
  wc_collation : col_collation c <> [] -> col_collation c <> coll ->
    match d with
    | Postgres => plain_name (col_collation c)
    | SQLServer => raw_name (col_collation c) /\ col_default c = []
    | _ => raw_name (col_collation c)
    end;
  wc_generated : col_expr c <> [] ->
    bracketed (col_expr c) /\
    match d with
    | MySQL => col_autoincrement c = false /\ col_notnull c = false /\ col_default c = [] /\ col_onupdate c = false
    | SQLServer => col_identity c = [] /\ col_default c = [] /\ col_collation c = [] /\ col_domain c = [] /\ col_enum c = false
    | _ => col_stored c = true
    end;
  wc_level : level = true -> d = SQLite /\ writable_reference r
}.
Record writable_constraint (c : constraint) : Prop := {
  wk_name : plain_name (con_name c);
  wk_type : In (con_type c) (map B ["PRIMARY KEY"; "UNIQUE"; "CHECK"; "FOREIGN KEY"; "EXCLUDE"]%string);
  wk_columns : con_type c <> CHECK -> con_type c <> EXCLUDE -> plain_names_ (con_columns c);
  wk_check : con_type c = CHECK -> fits [] (con_check c);
  wk_foreign : con_type c = FOREIGN_KEY ->
    plain_name (con_refschema c) /\ plain_name (con_reftable c) /\ plain_names_ (con_refcolumns c)
    /\ fits_rule (con_update c) /\ fits_rule (con_delete c) /\ con_match c <> B"MATCH FULL" /\ (d = MySQL -> cur <> [] /\ plain_name cur);
  wk_exclude : con_type c = EXCLUDE ->
    d = Postgres /\ con_columns c <> [] /\ (con_indextype c <> [] -> tokens d (con_indextype c) = Some [Word (con_indextype c)])
    /\ (forall n, In n (con_columns c) -> fits [B"WITH"] n) /\ (forall o, In o (con_operators c) -> fits [] o)
    /\ List.length (con_operators c) = List.length (con_columns c) /\ (con_predicate c <> [] -> fits [] (con_predicate c))
}.
Record writable_index (x : index) : Prop := {
  wx_name : plain_name (ix_name x);
  wx_type : match d with
            | SQLServer => In (to_upper (ix_type x)) [[]; B"NONCLUSTERED"]
            | MySQL => to_upper (ix_name x) <> B"SPATIAL" /\
                       (In (to_upper (ix_type x)) [[]; B"BTREE"]
                        \/ to_upper (ix_type x) = B"FULLTEXT" /\ ix_unique x = false)
            | Postgres => ix_type x <> [] -> tokens d (ix_type x) = Some [Word (ix_type x)]
            | _ => True
            end;
  wx_columns : ix_columns x <> [];
  wx_each : forall n, In n (ix_columns x) -> if is_expression n then bracketed n else plain_name n;
  wx_classes : d = Postgres -> forall n, In n (ix_opclasses x) -> n = [];
  wx_include : forall n, In n (ix_include x) -> plain_name n;
  wx_where : ix_predicate x <> [] -> fits [] (ix_predicate x);
  wx_sql : ix_sql x = []
}.
Definition writable_table (t : table) : Prop :=
  tb_sql t = [] /\ plain_name (tb_schema t) /\ plain_name (tb_name t) /\ table_columns t <> []
  /\ (forall c, In c (table_columns t) -> writable_column false no_reference c)
  /\ (forall c, In c (table_constraints t) -> writable_constraint c).
(** The name of an altered column is written without quotes in Postgres. *)
Definition altered_name (n : bytes) : Prop := match d with Postgres => raw_word n | _ => plain_name n end.
Definition dialects (l : list dialect) : Prop := In d l.
Definition writable (s : stmt) : Prop :=
  match s with
  | QDropSchema n => plain_name n
  | QCreateSchema n => dialects [Postgres; MySQL; SQLServer] /\ plain_name n
      /\ (d = SQLServer -> ~ exists a b, n = a ++ squote :: squote :: b)
  | QDropTable q => plain_table q
  | QCreateTable q t => q = qualify cur (tb_schema t) (tb_name t) /\ writable_table t
  | QCopyRows q q' l => plain_table q /\ plain_table q' /\ plain_names_ l
  | QCreateIndex q x _ => plain_table q /\ q = qualify cur (ix_schema x) (ix_table x) /\ writable_index x
  | QDropIndex q n => plain_table q /\ plain_name n /\ (d = SQLite -> fst q = [])
  | QPragma _ => d = SQLite
  | QDropConstraint q c => plain_table q /\ plain_name (con_name c)
  | QDropCheck q n => plain_table q /\ plain_name n
  | QDropColumn q n => plain_table q /\ plain_name n
  | QAddColumn q c => plain_table q /\ writable_column sqlite (ref c) c
  | QModifyColumn q c => d = MySQL /\ plain_table q /\ writable_column false no_reference c
  | QSetType q n ty co null =>
      dialects [Postgres; SQLServer] /\ plain_table q /\ altered_name n /\ fits clauses ty
      /\ (d = Postgres -> null = None)
      /\ forall s, co = Some s -> match d with Postgres => plain_name s | _ => raw_word s end
  | QSetDefault q n e =>
      plain_table q /\ altered_name n
      /\ match d with Postgres => fits_operand [] e | SQLServer => fits_operand [B"FOR"] e | _ => False end
  | QDropDefault q n | QSetNotNull q n | QDropNotNull q n | QDropIdentity q n => d = Postgres /\ plain_table q /\ altered_name n
  | QAddIdentity q n k => d = Postgres /\ plain_table q /\ altered_name n /\ k <> [] /\ fits_identity k
  | QAddCheck q name n => d = Postgres /\ plain_table q /\ plain_name name /\ altered_name n
  | QAddConstraint q c nv => plain_table q /\ writable_constraint c /\ (nv = true -> d = Postgres)
  | QAddUsingIndex q c =>
      d = Postgres /\ plain_table q /\ plain_name (con_name c) /\ In (con_type c) [PRIMARY_KEY; UNIQUE]
  | QAlterConstraint q c => d = Postgres /\ plain_table q /\ plain_name (con_name c)
  | QValidate q n => d = Postgres /\ plain_table q /\ plain_name n
  | QRename q n => d = SQLite /\ plain_table q /\ plain_name n
  end.
End Meaning.

(** ** Files *)
(** A text that is read as the statements are meant. *)
Definition read_as_meant (d : dialect) (cur coll : bytes) (ref : column -> reference) (l : list stmt) (s : bytes) : Prop :=
  exists sts sts', map (meant d cur coll ref) l = map Some sts /\ script d s = Some sts' /\ map plainly sts' = map plainly sts.
Definition file_as (d : dialect) (cur coll : bytes) (ref : column -> reference) (f : file) (t : text_file) : Prop :=
  tx_name t = fl_name f /\ tx_undo t = fl_undo f /\ read_as_meant d cur coll ref (fl_stmts f) (tx_text t).
