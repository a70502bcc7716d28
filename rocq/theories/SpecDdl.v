(** Reading the statements that change a schema: CREATE, DROP and ALTER in the four databases.
    Nothing here refers to the model of the Go code.  Only the clauses that migrations use are
    understood.  Types and expressions are kept as tokens. *)
From Verif Require Import GoStr SpecSql SpecInsert SpecTokens.

(** ** Runs of tokens *)
Definition is_sym (c : ascii) (t : token) : bool := match t with Sym c' => ceqb c c' | _ => false end.
Definition is_word (l : list bytes) (t : token) : bool := match t with Word w => bmem (to_upper w) l | _ => false end.
Definition deeper (n : nat) (t : token) : nat := if is_sym "(" t then S n else if is_sym ")" t then pred n else n.
(** What ends an expression outside of brackets. *)
Definition ends_run (stop : list bytes) (t : token) : bool := is_word stop t || is_sym ")" t || is_sym "," t || is_sym ";" t.
(** The tokens up to the next end outside of brackets; [n] brackets are open. *)
Fixpoint run (stop : list bytes) (n : nat) (ts : toks) : toks * toks :=
  match ts with
  | [] => ([], [])
  | t :: r =>
      if (n =? 0) && ends_run stop t then ([], ts)
      else let '(a, b) := run stop (deeper n t) r in (t :: a, b)
  end.
Definition some_run (stop : list bytes) (ts : toks) : option (toks * toks) :=
  match run stop 0 ts with ([], _) => None | (a, r) => Some (a, r) end.
(** An expression whose first token may be any word, e.g. DEFAULT NULL. *)
Definition operand (stop : list bytes) (ts : toks) : option (toks * toks) :=
  match ts with
  | t :: r => if ends_run [] t then None else let '(a, b) := run stop (deeper 0 t) r in Some (t :: a, b)
  | [] => None
  end.
(** Something that may be absent. *)
Definition maybe {A} (p : toks -> option (A * toks)) (ts : toks) : option A * toks :=
  match p ts with Some (a, r) => (Some a, r) | None => (None, ts) end.
Definition has (ks : list bytes) (ts : toks) : bool * toks :=
  match kws ks ts with Some r => (true, r) | None => (false, ts) end.

(** ** Columns *)
Inductive rule := NoAction | Restrict | Cascade | SetNull | SetDefaultValue.
Definition read_rule (ts : toks) : option (rule * toks) :=
  match kws [B"NO"; B"ACTION"] ts with Some r => Some (NoAction, r) | None =>
  match kws [B"RESTRICT"] ts with Some r => Some (Restrict, r) | None =>
  match kws [B"CASCADE"] ts with Some r => Some (Cascade, r) | None =>
  match kws [B"SET"; B"NULL"] ts with Some r => Some (SetNull, r) | None =>
  match kws [B"SET"; B"DEFAULT"] ts with Some r => Some (SetDefaultValue, r) | None => None end end end end end.
(** [ON UPDATE rule] [ON DELETE rule] *)
Definition read_on (w : bytes) (ts : toks) : option (rule * toks) :=
  match kws [B"ON"; w] ts with Some r => read_rule r | None => Some (NoAction, ts) end.
Definition read_rules (ts : toks) : option ((rule * rule) * toks) :=
  let? (u, r) := read_on (B"UPDATE") ts in let? (v, r) := read_on (B"DELETE") r in Some ((u, v), r).
(** [DEFERRABLE [INITIALLY DEFERRED]]: whether the constraint is deferrable and deferred. *)
Definition read_deferrable (ts : toks) : option ((bool * bool) * toks) :=
  let '(a, r) := has [B"DEFERRABLE"] ts in
  if a then let '(b, r') := has [B"INITIALLY"; B"DEFERRED"] r in Some ((true, b), r') else Some ((false, false), ts).
Record refers := Refers { rs_table : list bytes; rs_columns : list bytes; rs_rules : rule * rule; rs_defer : bool * bool }.
Definition read_refers (d : dialect) (ts : toks) : option (refers * toks) :=
  let? r := kw (B"REFERENCES") ts in
  let? (p, r) := path d r in
  let? (l, r) := parens (names d) r in
  let? (u, r) := read_rules r in
  let? (f, r) := read_deferrable r in
  Some (Refers p l u f, r).

(** GENERATED .. AS IDENTITY in Postgres, IDENTITY in SQL Server; the rest are options. *)
Record identity := Identity { id_always : bool; id_options : toks }.
(** Words that begin a clause of a column. *)
Definition clauses : list bytes := map B [
  "PRIMARY"; "AUTOINCREMENT"; "AUTO_INCREMENT"; "NOT"; "NULL"; "UNIQUE"; "GENERATED"; "IDENTITY"; "DEFAULT"; "ON";
  "COLLATE"; "AS"; "REFERENCES"; "CONSTRAINT"; "CHECK"; "STORED"; "PERSISTED"; "DEFERRABLE"]%string.
Definition read_identity (d : dialect) (ts : toks) : option (identity * toks) :=
  let options b r := let '(a, r') := run clauses 0 r in Some (Identity b a, r') in
  match d with
  | Postgres =>
      let? r := kw (B"GENERATED") ts in
      match kws [B"ALWAYS"; B"AS"; B"IDENTITY"] r with
      | Some r => options true r
      | None => let? r := kws [B"BY"; B"DEFAULT"; B"AS"; B"IDENTITY"] r in options false r
      end
  | SQLServer => let? r := kw (B"IDENTITY") ts in options true r
  | _ => None
  end.

Record column_def := ColumnDef {
  cd_name : bytes; cd_type : toks; cd_primary : bool; cd_auto : bool; cd_notnull : bool; cd_unique : bool;
  cd_identity : option identity; cd_default : option toks; cd_onupdate : bool; cd_collation : option bytes;
  cd_generated : option (toks * bool);       (* the expression and whether its value is stored *)
  cd_refers : option refers
}.
(** The words of a type can be written in any case. *)
Definition up (t : token) : token := match t with Word w => Word (to_upper w) | Num w => Num (to_upper w) | _ => t end.
Definition plain_column (n : bytes) (ty : toks) : column_def :=
  ColumnDef n (map up ty) false false false false None None false None None None.

(** The clauses after the type, in any order.  A clause that is given twice is refused. *)
Inductive clause :=
| CPrimary | CAuto | CNotNull | CUnique | CIdentity (i : identity) | CDefault (e : toks) | COnUpdate | CCollate (n : bytes)
| CGenerated (e : toks) (stored : bool) | CRefers (r : refers).
Definition expression (ts : toks) : option (toks * toks) := some_run [] ts.
(** GENERATED ALWAYS AS (expression) STORED, and in MySQL and SQL Server AS (expression) with
    STORED or PERSISTED if the value is stored. *)
Definition read_generated (d : dialect) (ts : toks) : option ((toks * bool) * toks) :=
  match d with
  | MySQL =>
      let? r := kw (B"AS") ts in let? (e, r) := parens expression r in
      let '(b, r) := has [B"STORED"] r in Some ((e, b), r)
  | SQLServer =>
      let? r := kw (B"AS") ts in let? (e, r) := parens expression r in
      let '(b, r) := has [B"PERSISTED"] r in Some ((e, b), r)
  | _ =>
      let? r := kws [B"GENERATED"; B"ALWAYS"; B"AS"] ts in let? (e, r) := parens expression r in
      let? r := kw (B"STORED") r in Some ((e, true), r)
  end.
Definition read_clause (d : dialect) (ts : toks) : option (clause * toks) :=
  match kws [B"PRIMARY"; B"KEY"] ts with Some r => Some (CPrimary, r) | None =>
  match (match d with MySQL => kw (B"AUTO_INCREMENT") ts | SQLite => kw (B"AUTOINCREMENT") ts | _ => None end) with Some r => Some (CAuto, r) | None =>
  match kws [B"NOT"; B"NULL"] ts with Some r => Some (CNotNull, r) | None =>
  match kw (B"UNIQUE") ts with Some r => Some (CUnique, r) | None =>
  match read_identity d ts with Some (i, r) => Some (CIdentity i, r) | None =>
  match kw (B"DEFAULT") ts with Some r => let? (e, r) := operand clauses r in Some (CDefault e, r) | None =>
  match (match d with MySQL => kws [B"ON"; B"UPDATE"; B"CURRENT_TIMESTAMP"] ts | _ => None end) with Some r => Some (COnUpdate, r) | None =>
  match kw (B"COLLATE") ts with Some r => let? (n, r) := name d r in Some (CCollate n, r) | None =>
  match read_generated d ts with Some ((e, b), r) => Some (CGenerated e b, r) | None =>
  let? (x, r) := read_refers d ts in Some (CRefers x, r)
  end end end end end end end end end.
(** The expression of a column has to come before all other clauses: in MySQL only a collation
    may be given before it, in SQL Server neither this nor a type. *)
Definition may_generate (d : dialect) (c : column_def) : bool :=
  let bare := negb (cd_primary c || cd_auto c || cd_notnull c || cd_unique c || cd_onupdate c)
    && match cd_identity c, cd_default c, cd_refers c with None, None, None => true | _, _, _ => false end in
  match d with
  | MySQL => bare
  | SQLServer => bare && match cd_type c, cd_collation c with [], None => true | _, _ => false end
  | _ => true
  end.
(** After DEFAULT in SQL Server, COLLATE belongs to the expression and not to the column. *)
Definition may_collate (d : dialect) (c : column_def) : bool :=
  match d, cd_default c with SQLServer, Some _ => false | _, _ => true end.
Definition add_clause (d : dialect) (c : column_def) (x : clause) : option column_def :=
  let '(ColumnDef n ty p a nn u i e o co g r) := c in
  match x with
  | CPrimary => if p then None else Some (ColumnDef n ty true a nn u i e o co g r)
  | CAuto => if a then None else Some (ColumnDef n ty p true nn u i e o co g r)
  | CNotNull => if nn then None else Some (ColumnDef n ty p a true u i e o co g r)
  | CUnique => if u then None else Some (ColumnDef n ty p a nn true i e o co g r)
  | CIdentity y => match i with None => Some (ColumnDef n ty p a nn u (Some y) e o co g r) | _ => None end
  | CDefault y => match e with None => Some (ColumnDef n ty p a nn u i (Some y) o co g r) | _ => None end
  | COnUpdate => if o then None else Some (ColumnDef n ty p a nn u i e true co g r)
  | CCollate y => match co with None => if may_collate d c then Some (ColumnDef n ty p a nn u i e o (Some y) g r) else None | _ => None end
  | CGenerated y b =>
      match g with None => if may_generate d c then Some (ColumnDef n ty p a nn u i e o co (Some (y, b)) r) else None | _ => None end
  | CRefers y => match r with None => Some (ColumnDef n ty p a nn u i e o co g (Some y)) | _ => None end
  end.
(** At the end of a definition. *)
Definition at_end (ts : toks) : bool :=
  match ts with t :: _ => is_sym "," t || is_sym ")" t || is_sym ";" t | [] => true end.
Fixpoint read_clauses (fuel : nat) (d : dialect) (c : column_def) (ts : toks) : option (column_def * toks) :=
  if at_end ts then Some (c, ts)
  else match fuel with
  | 0 => None
  | S n => let? (x, r) := read_clause d ts in let? c' := add_clause d c x in read_clauses n d c' r
  end.
Definition read_column (d : dialect) (ts : toks) : option (column_def * toks) :=
  let? (n, r) := name d ts in
  let '(ty, r) := run clauses 0 r in
  read_clauses (S (List.length r)) d (plain_column n ty) r.

Definition read_collate (d : dialect) (ts : toks) : option (bytes * toks) := let? r := kw (B"COLLATE") ts in name d r.

(** ** Constraints *)
Inductive body :=
| BPrimary (l : list bytes)
| BUnique (l : list bytes)
| BCheck (e : toks)
| BForeign (l : list bytes) (table : list bytes) (refs : list bytes) (full : bool) (rules : rule * rule)
| BExclude (method : option bytes) (l : list (toks * toks)) (where_ : option toks).
Record constraint_def := ConstraintDef { kd_name : option bytes; kd_body : body; kd_defer : bool * bool }.
(** expression WITH operator *)
Definition read_exclusion (ts : toks) : option ((toks * toks) * toks) :=
  let? (e, r) := some_run [B"WITH"] ts in let? r := kw (B"WITH") r in let? (o, r) := some_run [] r in Some ((e, o), r).
Definition read_using (ts : toks) : option (bytes * toks) :=
  match ts with Word k :: Word w :: r => if beqb (to_upper k) (B"USING") then Some (to_upper w, r) else None | _ => None end.
Definition read_where (ts : toks) : option (toks * toks) := let? r := kw (B"WHERE") ts in parens expression r.
Definition read_body (d : dialect) (ts : toks) : option (body * toks) :=
  match kws [B"PRIMARY"; B"KEY"] ts with
  | Some r => let? (l, r) := parens (names d) r in Some (BPrimary l, r)
  | None =>
  match kw (B"UNIQUE") ts with
  | Some r => let? (l, r) := parens (names d) r in Some (BUnique l, r)
  | None =>
  match kw (B"CHECK") ts with
  | Some r => let? (e, r) := parens expression r in Some (BCheck e, r)
  | None =>
  match kws [B"FOREIGN"; B"KEY"] ts with
  | Some r =>
      let? (l, r) := parens (names d) r in
      let? r := kw (B"REFERENCES") r in
      let? (p, r) := path d r in
      let? (m, r) := parens (names d) r in
      let '(full, r) := has [B"MATCH"; B"FULL"] r in
      let? (u, r) := read_rules r in
      Some (BForeign l p m full u, r)
  | None =>
      match d with
      | Postgres =>
          let? r := kw (B"EXCLUDE") ts in
          let '(u, r) := maybe read_using r in
          let? (l, r) := parens (tlist read_exclusion (sym ",")) r in
          let '(w, r) := maybe read_where r in
          Some (BExclude u l w, r)
      | _ => None
      end
  end end end end.
Definition read_constraint (d : dialect) (ts : toks) : option (constraint_def * toks) :=
  match kw (B"CONSTRAINT") ts with
  | Some r =>
      let? (n, r) := name d r in let? (b, r) := read_body d r in let? (f, r) := read_deferrable r in
      Some (ConstraintDef (Some n) b f, r)
  | None => let? (b, r) := read_body d ts in let? (f, r) := read_deferrable r in Some (ConstraintDef None b f, r)
  end.

(** ** Tables *)
(** A constraint begins with one of these words; they cannot be names of columns. *)
Definition begins_constraint (d : dialect) (ts : toks) : bool :=
  match ts with
  | t :: r =>
      is_word (map B ["CONSTRAINT"; "PRIMARY"; "UNIQUE"; "CHECK"; "FOREIGN"]%string) t
      || match d with
         | Postgres => is_word [B"EXCLUDE"] t && match r with t' :: _ => is_word [B"USING"] t' || is_sym "(" t' | [] => false end
         | _ => false
         end
  | [] => false
  end.
Definition item := (column_def + constraint_def)%type.
Definition read_item (d : dialect) (ts : toks) : option (item * toks) :=
  if begins_constraint d ts then let? (c, r) := read_constraint d ts in Some (inr c, r)
  else let? (c, r) := read_column d ts in Some (inl c, r).
Definition columns_in (l : list item) : list column_def := flat_map (fun i => match i with inl c => [c] | inr _ => [] end) l.
Definition constraints_in (l : list item) : list constraint_def := flat_map (fun i => match i with inl _ => [] | inr c => [c] end) l.

(** ** Indexes *)
Inductive element := EName (n : bytes) | EExpr (e : toks).
Record part := Part { pt_element : element; pt_class : option bytes; pt_desc : bool }.
Record index_def := IndexDef {
  xd_unique : bool; xd_kind : option bytes; xd_concurrently : bool; xd_name : bytes; xd_using : option bytes;
  xd_table : option (list bytes); xd_elements : list part; xd_include : list bytes; xd_where : option toks
}.
(** A name or an expression in brackets, perhaps with an operator class and with DESC. *)
Definition read_part (d : dialect) (ts : toks) : option (part * toks) :=
  let? (e, r) := (match sym "(" ts with
                  | Some _ => let? (e, r) := parens expression ts in Some (EExpr e, r)
                  | None => let? (n, r) := name d ts in Some (EName n, r)
                  end) in
  let '(o, r) := match d with Postgres => maybe (name d) r | _ => (None, r) end in
  let '(b, r) := has [B"DESC"] r in Some (Part e o b, r).
Definition read_include (d : dialect) (ts : toks) : option (list bytes * toks) :=
  let? r := kw (B"INCLUDE") ts in parens (names d) r.
Definition read_kind (d : dialect) (ts : toks) : option (bytes * toks) :=
  match d, ts with
  | MySQL, Word w :: r => if bmem (to_upper w) [B"FULLTEXT"; B"SPATIAL"] then Some (to_upper w, r) else None
  | SQLServer, Word w :: r => if beqb (to_upper w) (B"CLUSTERED") then Some (to_upper w, r) else None
  | _, _ => None
  end.
Definition list_of {A} (o : option (list A)) : list A := match o with Some l => l | None => [] end.
(** [inline]: within ALTER TABLE.  MySQL has USING before the table, Postgres after it. *)
Definition read_index (d : dialect) (inline : bool) (ts : toks) : option (index_def * toks) :=
  let '(u, r) := has [B"UNIQUE"] ts in
  let '(k, r) := maybe (read_kind d) r in
  let? r := kw (B"INDEX") r in
  let '(conc, r) := match d with Postgres => has [B"CONCURRENTLY"] r | _ => (false, r) end in
  let? (n, r) := name d r in
  let '(us, r) := match d with MySQL => maybe read_using r | _ => (None, r) end in
  let? (tb, r) := if inline then Some (None, r) else let? r := kw (B"ON") r in let? (p, r) := path d r in Some (Some p, r) in
  let '(us, r) := match d with Postgres => maybe read_using r | _ => (us, r) end in
  let? (l, r) := parens (tlist (read_part d) (sym ",")) r in
  let '(inc, r) := match d with Postgres | SQLServer => maybe (read_include d) r | _ => (None, r) end in
  let? (w, r) := (match d, kw (B"WHERE") r with
                  | MySQL, _ | _, None => Some (None, r)
                  | _, Some r => let? (e, r) := some_run [] r in Some (Some e, r)
                  end) in
  Some (IndexDef u k conc n us tb l (list_of inc) w, r).

(** ** Statements *)
Inductive action :=
| ADropConstraint (n : bytes) | ADropIndex (n : bytes) | ADropColumn (n : bytes)
| AAddColumn (c : column_def) | AModifyColumn (c : column_def) | AAddIndex (x : index_def)
| AAddConstraint (c : constraint_def) (notvalid : bool) | AAddUsingIndex (n : bytes) (primary : bool) (index : bytes)
| ASetType (n : bytes) (ty : toks) (collation : option bytes) (null : option bool)
| ASetDefault (n : bytes) (e : toks) | ADropDefault (n : bytes) | ASetNotNull (n : bytes) | ADropNotNull (n : bytes)
| AAddIdentity (n : bytes) (i : identity) | ADropIdentity (n : bytes)
| AAlterConstraint (n : bytes) (deferrable deferred : bool) | AValidate (n : bytes) | ARename (n : bytes).
Inductive statement :=
| DropSchema (n : bytes) (cascade : bool)
| CreateSchema (n : bytes)
| DropTable (p : list bytes)
| CreateTable (p : list bytes) (columns : list column_def) (constraints : list constraint_def)
| CopyRows (from into : list bytes) (columns expressions : list bytes)
| CreateIndex (x : index_def)
| DropIndex (p : list bytes) (on : option (list bytes))
| AlterTable (p : list bytes) (a : action)
| LegacyAlterTable (on : bool).

(** IF EXISTS and IF NOT EXISTS are passed over. *)
Definition skip (ks : list bytes) (ts : toks) : toks := snd (has ks ts).
Definition if_exists_ : toks -> toks := skip [B"IF"; B"EXISTS"].
Definition a_name (d : dialect) (f : bytes -> action) (ts : toks) : option (action * toks) :=
  let? (n, r) := name d ts in Some (f n, r).
Definition read_drop_action (d : dialect) (ts : toks) : option (action * toks) :=
  match kw (B"CONSTRAINT") ts with Some r => a_name d ADropConstraint (if_exists_ r) | None =>
  match kw (B"COLUMN") ts with Some r => a_name d ADropColumn (if_exists_ r) | None =>
  match d with MySQL => let? r := kw (B"INDEX") ts in a_name d ADropIndex r | _ => None end end end.
(** UNIQUE INDEX, INDEX, FULLTEXT INDEX. *)
Definition begins_index (ts : toks) : bool :=
  match ts with
  | t :: r => is_word [B"INDEX"] t || (is_word (map B ["UNIQUE"; "FULLTEXT"; "SPATIAL"]%string) t && match r with t' :: _ => is_word [B"INDEX"] t' | [] => false end)
  | [] => false
  end.
Definition read_using_index (d : dialect) (ts : toks) : option (action * toks) :=
  let? r := kw (B"CONSTRAINT") ts in
  let? (n, r) := name d r in
  let? (p, r) := (match kws [B"PRIMARY"; B"KEY"] r with Some r => Some (true, r) | None => let? r := kw (B"UNIQUE") r in Some (false, r) end) in
  let? r := kws [B"USING"; B"INDEX"] r in
  let? (i, r) := name d r in Some (AAddUsingIndex n p i, r).
Definition read_add_constraint (d : dialect) (ts : toks) : option (action * toks) :=
  let? (c, r) := read_constraint d ts in
  let '(nv, r) := match d with Postgres => has [B"NOT"; B"VALID"] r | _ => (false, r) end in
  Some (AAddConstraint c nv, r).
Definition read_add_action (d : dialect) (ts : toks) : option (action * toks) :=
  if (match d with MySQL => begins_index ts | _ => false end) then let? (x, r) := read_index d true ts in Some (AAddIndex x, r)
  else match (match d with SQLServer => kw (B"DEFAULT") ts | _ => None end) with
  | Some r => let? (e, r) := operand [B"FOR"] r in let? r := kw (B"FOR") r in let? (n, r) := name d r in Some (ASetDefault n e, r)
  | None =>
  if begins_constraint d ts then
    match (match d with Postgres => read_using_index d ts | _ => None end) with Some x => Some x | None => read_add_constraint d ts end
  else
    let? r := (match d with SQLServer => Some ts | _ => kw (B"COLUMN") ts end) in
    let? (c, r) := read_column d r in Some (AAddColumn c, r)
  end.
Definition read_null (ts : toks) : option (bool * toks) :=
  match kws [B"NOT"; B"NULL"] ts with Some r => Some (false, r) | None => let? r := kw (B"NULL") ts in Some (true, r) end.
Definition read_alter_column (d : dialect) (ts : toks) : option (action * toks) :=
  let? (n, r) := name d ts in
  match d with
  | SQLServer =>
      let? (ty, r) := some_run clauses r in
      let '(co, r) := maybe (read_collate d) r in
      let '(nu, r) := maybe read_null r in
      Some (ASetType n (map up ty) co nu, r)
  | Postgres =>
      match kw (B"TYPE") r with
      | Some r =>
          let? (ty, r) := some_run clauses r in
          let '(co, r) := maybe (read_collate d) r in Some (ASetType n (map up ty) co None, r)
      | None =>
      match kws [B"SET"; B"DEFAULT"] r with Some r => let? (e, r) := operand [] r in Some (ASetDefault n e, r) | None =>
      match kws [B"DROP"; B"DEFAULT"] r with Some r => Some (ADropDefault n, r) | None =>
      match kws [B"SET"; B"NOT"; B"NULL"] r with Some r => Some (ASetNotNull n, r) | None =>
      match kws [B"DROP"; B"NOT"; B"NULL"] r with Some r => Some (ADropNotNull n, r) | None =>
      match kws [B"DROP"; B"IDENTITY"] r with Some r => Some (ADropIdentity n, r) | None =>
        let? r := kw (B"ADD") r in let? (i, r) := read_identity d r in Some (AAddIdentity n i, r)
      end end end end end end
  | _ => None
  end.
Definition read_alter_constraint (d : dialect) (ts : toks) : option (action * toks) :=
  let? (n, r) := name d ts in
  let '(no, r) := has [B"NOT"] r in
  let? r := kw (B"DEFERRABLE") r in
  let '(b, r) := has [B"INITIALLY"; B"DEFERRED"] r in Some (AAlterConstraint n (negb no) b, r).
Definition read_action (d : dialect) (ts : toks) : option (action * toks) :=
  match kw (B"DROP") ts with Some r => read_drop_action d r | None =>
  match kw (B"ADD") ts with Some r => read_add_action d r | None =>
  match d with
  | MySQL => let? r := kws [B"MODIFY"; B"COLUMN"] ts in let? (c, r) := read_column d r in Some (AModifyColumn c, r)
  | SQLite => let? r := kws [B"RENAME"; B"TO"] ts in a_name d ARename r
  | Postgres =>
      match kws [B"ALTER"; B"COLUMN"] ts with Some r => read_alter_column d r | None =>
      match kws [B"ALTER"; B"CONSTRAINT"] ts with Some r => read_alter_constraint d r | None =>
      let? r := kws [B"VALIDATE"; B"CONSTRAINT"] ts in a_name d AValidate r end end
  | SQLServer => let? r := kws [B"ALTER"; B"COLUMN"] ts in read_alter_column d r
  | Other => None
  end end end.
(** Several actions with commas: only in MySQL and Postgres.  Each is a statement of its own. *)
Definition read_actions (d : dialect) (ts : toks) : option (list action * toks) :=
  match d with
  | MySQL | Postgres => tlist (read_action d) (sym ",") ts
  | _ => let? (a, r) := read_action d ts in Some ([a], r)
  end.
Definition end_of (r : toks) (l : list statement) : option (list statement * toks) := let? r := sym ";" r in Some (l, r).
Definition read_drop (d : dialect) (ts : toks) : option (list statement * toks) :=
  match kw (B"SCHEMA") ts with
  | Some r => let? (n, r) := name d (if_exists_ r) in let '(b, r) := has [B"CASCADE"] r in end_of r [DropSchema n b]
  | None =>
  match kw (B"TABLE") ts with
  | Some r => let? (p, r) := path d (if_exists_ r) in end_of r [DropTable p]
  | None =>
      let? r := kw (B"INDEX") ts in
      let? (p, r) := path d (if_exists_ r) in
      match d with
      | SQLServer => let? r := kw (B"ON") r in let? (q, r) := path d r in end_of r [DropIndex p (Some q)]
      | _ => end_of r [DropIndex p None]
      end
  end end.
Definition read_create (d : dialect) (ts : toks) : option (list statement * toks) :=
  match kw (B"SCHEMA") ts with
  | Some r => let? (n, r) := name d (skip [B"IF"; B"NOT"; B"EXISTS"] r) in end_of r [CreateSchema n]
  | None =>
  match kw (B"TABLE") ts with
  | Some r =>
      let? (p, r) := path d r in
      let? (l, r) := parens (tlist (read_item d) (sym ",")) r in
      end_of r [CreateTable p (columns_in l) (constraints_in l)]
  | None => let? (x, r) := read_index d false ts in end_of r [CreateIndex x]
  end end.
Definition read_copy (d : dialect) (ts : toks) : option (list statement * toks) :=
  let? (p, r) := path d ts in
  let? (l, r) := parens (names d) r in
  let? r := kw (B"SELECT") r in
  let? (m, r) := names d r in
  let? r := kw (B"FROM") r in
  let? (q, r) := path d r in end_of r [CopyRows q p l m].
Definition read_simple (d : dialect) (ts : toks) : option (list statement * toks) :=
  match kw (B"DROP") ts with Some r => read_drop d r | None =>
  match kw (B"CREATE") ts with Some r => read_create d r | None =>
  match kws [B"ALTER"; B"TABLE"] ts with
  | Some r => let? (p, r) := path d r in let? (l, r) := read_actions d r in end_of r (map (AlterTable p) l)
  | None =>
  match kws [B"INSERT"; B"INTO"] ts with Some r => read_copy d r | None =>
  match d with
  | SQLite =>
      let? r := kws [B"PRAGMA"; B"LEGACY_ALTER_TABLE"] ts in let? r := sym "=" r in
      match kw (B"ON") r with Some r => end_of r [LegacyAlterTable true] | None => let? r := kw (B"OFF") r in end_of r [LegacyAlterTable false] end
  | _ => None
  end end end end end.
(** SQL Server: IF SCHEMA_ID('n') IS NULL EXEC('CREATE SCHEMA n'); *)
Definition read_if_schema (ts : toks) : option (list statement * toks) :=
  match ts with
  | Word a :: Word b :: Sym c :: Str n :: Sym e :: r =>
      if beqb a (B"IF") && beqb b (B"SCHEMA_ID") && ceqb c "(" && ceqb e ")" then
        let? r := kws [B"IS"; B"NULL"; B"EXEC"] r in
        match r with
        | Sym c' :: Str t :: Sym e' :: r =>
            if ceqb c' "(" && ceqb e' ")" then
              let? ts := tokens SQLServer t in
              let? r' := kws [B"CREATE"; B"SCHEMA"] ts in
              match r' with
              | [x] => let? m := name_token SQLServer x in if beqb m n then end_of r [CreateSchema n] else None
              | _ => None
              end
            else None
        | _ => None
        end
      else None
  | _ => None
  end.
Definition read_statement (d : dialect) (ts : toks) : option (list statement * toks) :=
  match d with
  | SQLServer => match read_if_schema ts with Some x => Some x | None => read_simple d ts end
  | _ => read_simple d ts
  end.
Fixpoint read_all (fuel : nat) (d : dialect) (ts : toks) : option (list statement) :=
  match ts, fuel with
  | [], _ => Some []
  | _, 0 => None
  | _, S n => let? (l, r) := read_statement d ts in let? l' := read_all n d r in Some (l ++ l')
  end.
(** The statements of a file. *)
Definition script (d : dialect) (s : bytes) : option (list statement) :=
  let? ts := tokens d s in read_all (List.length ts) d ts.
