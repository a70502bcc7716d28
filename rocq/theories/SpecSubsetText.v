(** What is expected of the texts of a subset dump: a reader for the query that dumps a table, and
    what a literal stands for. *)
From Verif Require Import GoStr ModelSq SpecSql SpecInsert SpecTokens ModelSubset SpecSubset ModelSubsetText.

(** ** Reading the query *)
Section Read.
Context (d : dialect).
(** schema.table or table *)
Definition table_of (p : list bytes) : option tid := match p with [t] => Some ([], t) | [s; t] => Some (s, t) | _ => None end.
Definition table_ref (ts : toks) : option (tid * toks) := let? (p, r) := path d ts in let? t := table_of p in Some (t, r).
Definition column_of (p : list bytes) : option colref :=
  match rev p with c :: q => let? t := table_of (rev q) in Some (t, c) | [] => None end.
Definition column_ref (ts : toks) : option (colref * toks) := let? (p, r) := path d ts in let? c := column_of p in Some (c, r).
Definition column_refs : toks -> option (list colref * toks) := tlist column_ref (sym ",").
(** VALUES (1, 'a'), (2, 'b'); MySQL wants VALUES ROW(1, 'a') *)
Definition values_row (ts : toks) : option (list value * toks) :=
  let? r := (match d with MySQL => kw (B"row") ts | _ => Some ts end) in parens (tlist (constant d) (sym ",")) r.
Definition values_rows (ts : toks) : option (list (list value) * toks) := let? r := kw (B"values") ts in tlist values_row (sym ",") r.
(** column = column *)
Definition condition (ts : toks) : option ((colref * colref) * toks) :=
  let? (a, r) := column_ref ts in let? r := sym "=" r in let? (b, r) := column_ref r in Some ((a, b), r).
Definition conditions : toks -> option (list (colref * colref) * toks) := tlist condition (kw (B"and")).
Definition joined (ts : toks) : option ((tid * list (colref * colref)) * toks) :=
  let? (t, r) := table_ref ts in let? r := kw (B"on") r in let? (l, r) := conditions r in Some ((t, l), r).
(** table JOIN table ON .. JOIN .. *)
Definition from_clause (ts : toks) : option (sql_join * toks) :=
  let? (t, r) := table_ref ts in let? (l, r) := many (kw (B"join")) joined r in Some (SqlJoin t l, r).
Definition select_distinct (ts : toks) : option ((list colref * sql_join) * toks) :=
  let? r := kws [B"select"; B"distinct"] ts in let? (cs, r) := column_refs r in
  let? r := kw (B"from") r in let? (j, r) := from_clause r in Some ((cs, j), r).
Inductive cte :=
| CValues (n : bytes) (cols : list bytes) (rows : list (list value))
| CKeys (n : bytes) (cols : list bytes) (selects : list (list colref * sql_join)).
(** name (cols) AS (VALUES ..), which SQL Server does not have *)
Definition cte_values (ts : toks) : option (cte * toks) :=
  match d with
  | SQLServer =>
      let? (n, r) := name d ts in let? r := kw (B"as") r in
      let? (cr, r) := parens (fun r =>
        let? r := kw (B"select") r in let? r := sym "*" r in let? r := kw (B"from") r in
        let? (rows, r) := parens values_rows r in let? r := kw (B"as") r in let? (_, r) := name d r in
        let? (cols, r) := parens (names d) r in Some ((cols, rows), r)) r in
      Some (CValues n (fst cr) (snd cr), r)
  | _ =>
      let? (n, r) := name d ts in let? (cols, r) := parens (names d) r in let? r := kw (B"as") r in
      let? (rows, r) := parens values_rows r in Some (CValues n cols rows, r)
  end.
(** name (cols) AS (SELECT .. UNION SELECT ..) *)
Definition cte_keys (ts : toks) : option (cte * toks) :=
  let? (n, r) := name d ts in let? (cols, r) := parens (names d) r in let? r := kw (B"as") r in
  let? (l, r) := parens (tlist select_distinct (kw (B"union"))) r in Some (CKeys n cols l, r).
Definition read_cte (ts : toks) : option (cte * toks) :=
  match cte_values ts with Some x => Some x | None => cte_keys ts end.
(** WITH .. SELECT columns FROM table JOIN name ON .. ORDER BY columns; *)
Record with_query := WithQuery {
  w_ctes : list cte;
  w_columns : list colref;
  w_from : sql_join;
  w_order : list colref }.
Definition read_with (ts : toks) : option with_query :=
  let? r := kw (B"with") ts in let? (cs, r) := tlist read_cte (sym ",") r in
  let? r := kw (B"select") r in let? (cols, r) := column_refs r in
  let? r := kw (B"from") r in let? (j, r) := from_clause r in
  let? r := kws [B"order"; B"by"] r in let? (o, r) := column_refs r in
  match r with [Sym c] => if ceqb c ";" then Some (WithQuery cs cols j o) else None | _ => None end.

(** ** The query understood *)
Fixpoint same_list {A} (eqb : A -> A -> bool) (l l' : list A) : bool :=
  match l, l' with
  | [], [] => true
  | a :: l, a' :: l' => eqb a a' && same_list eqb l l'
  | _, _ => false
  end.
Definition colref_eqb (a b : colref) : bool := tid_eqb (fst a) (fst b) && beqb (snd a) (snd b).
Fixpoint distinct (l : list bytes) : bool := match l with [] => true | a :: l' => negb (bmem a l') && distinct l' end.
Fixpoint all_values (l : list cte) : option (list (bytes * list bytes * list (list value))) :=
  match l with
  | [] => Some []
  | CValues n cols rows :: l' => let? r := all_values l' in Some ((n, cols, rows) :: r)
  | CKeys _ _ _ :: _ => None
  end.
Definition tables_of (j : sql_join) : list tid := sj_first j :: map fst (sj_rest j).
(** The query in the form of SpecSubset, if it has this form: constants, then one table of keys,
    each of whose selects gives the key of the table to be dumped.  The names defined by WITH are
    distinct, rows are as long as the list of columns, and a table that is meant is not hidden by
    one of the names. *)
Definition understood (w : with_query) : option (sql_query value) :=
  match rev (w_ctes w) with
  | CKeys k key sels :: vs =>
      let? values := all_values (rev vs) in
      let i := sj_first (w_from w) in
      let keycols := map (fun c => (i, c)) key in
      let names := k :: map (fun v => fst (fst v)) values in
      match sj_rest (w_from w) with
      | [(t, on)] =>
          if tid_eqb t ([], k)
             && same_list (fun a b => colref_eqb (fst a) (fst b) && colref_eqb (snd a) (snd b)) on (map (fun c => ((t, c), (i, c))) key)
             && same_list colref_eqb (w_order w) keycols
             && forallb (fun s => same_list colref_eqb (fst s) keycols) sels
             && forallb (fun c => tid_eqb (fst c) i) (w_columns w)
             && distinct names
             && forallb (fun v => forallb (fun r => List.length r =? List.length (snd (fst v))) (snd v)) values
             && negb (existsb (fun n => tid_eqb i ([], n)) names)
             && forallb (fun s => negb (existsb (tid_eqb ([], k)) (tables_of (snd s)))) sels
          then Some (SqlQuery values (map snd sels) i key (map snd (w_columns w)))
          else None
      | _ => None
      end
  | _ => None
  end.
Definition read_query (s : bytes) : option (sql_query value) :=
  let? ts := tokens d s in let? w := read_with ts in understood w.
End Read.

(** ** Literals *)
(** A constant. *)
Definition read_constant (d : dialect) (s : bytes) : option value :=
  let? ts := tokens d s in let? (v, r) := constant d ts in match r with [] => Some v | _ => None end.
(** The fraction of a second. *)
Fixpoint fraction (s : bytes) (unit : N) : option N :=
  match s with
  | [] => Some 0%N
  | c :: s' => if is_digit c then let? n := fraction s' (unit / 10) in Some (digit_val c * unit + n)%N else None
  end.
Definition read_time (s : bytes) : option (bytes * N) :=
  match cut_byte "." s with
  | None => Some (s, 0%N)
  | Some (a, b) => if 9 <? List.length b then None else let? n := fraction b 100000000 in Some (a, n)
  end.
(** The column of VALUES is compared with a column of a table.  In Postgres, where the type of
    string constants in VALUES is text, this is possible for columns of character types only. *)
Definition character_types : list bytes := map B ["TEXT"; "CHAR"; "VARCHAR"]%string.
Definition stands_for (d : dialect) (ty : bytes) (v : value) (k : keyval) : Prop :=
  match k, v with
  | KvNull, VNull => True
  | KvInt z, VNum w => eval_int w = Some z
  | KvNum w', VNum w => w = w'
  | KvText s, VText s' => s' = s /\ (d = Postgres -> In ty character_types)
  | KvBytes s, VBytes s' => s' = s
  | KvBool b, VBool b' => b' = b
  | KvBool b, VNum w => d = SQLServer /\ w = (if b then B"1" else B"0")
  | KvTime second ns, VText s => d <> Postgres /\ read_time s = Some (second, ns)
  | _, _ => False
  end.
Definition denotes (d : dialect) (ty lit : bytes) (k : keyval) : Prop := exists v, read_constant d lit = Some v /\ stands_for d ty v k.

(** ** Which literals are expected to be right *)
(** Two quotes one after the other, not at the end. *)
Definition doubled (s : bytes) : Prop := exists a c b, s = a ++ squote :: squote :: c :: b.
(** A decimal number. *)
Definition decimal (w : bytes) : Prop :=
  exists sign a b, w = sign ++ a ++ b /\ (sign = [] \/ sign = B"-") /\ a <> [] /\ forallb is_digit a = true
    /\ (b = [] \/ exists b', b = B"." ++ b' /\ b' <> [] /\ forallb is_digit b' = true).
Definition time_char (c : ascii) : bool := is_digit c || ceqb c "-" || ceqb c ":" || ceqb c " ".
(** The exceptions for each dialect: [parses] says whether a text is that of a number. *)
Definition faithful (parses : bytes -> bool) (d : dialect) (ty : bytes) (k : keyval) : Prop :=
  match k with
  | KvNull | KvBool _ => True
  | KvInt _ => d = SQLite -> In ty sqlite_raw
  | KvNum w => decimal w /\ (d = SQLite -> In ty sqlite_raw)
  | KvText s => ~ doubled s /\ (d = MySQL -> ~ In backslash s) /\ (d = Postgres -> In ty character_types)
      /\ (d = SQLite -> ~ In ty sqlite_blobs /\ ~ In ty sqlite_raw /\ (ty = B"UUID" -> List.length s <> 16) /\ (In ty time_types -> parses s = false))
  | KvBytes s => d <> Postgres /\ (d = SQLite -> In ty sqlite_blobs \/ ty = B"UUID" /\ List.length s = 16)
  | KvTime second ns => d <> Postgres /\ forallb time_char second = true /\ ns = 0%N
  end.

(** ** Rows selected by a text *)
Definition nullable (v : value) : option value := match v with VNull => None | _ => Some v end.
Definition literal_value (d : dialect) (s : bytes) : value := match read_constant d s with Some v => v | None => VNull end.
Definition map_values {V W} (f : V -> W) (v : bytes * list bytes * list (list V)) : bytes * list bytes * list (list W) := (fst v, map (map f) (snd v)).
Definition map_query {V W} (f : V -> W) (q : sql_query V) : sql_query W :=
  SqlQuery (map (map_values f) (sq_values q)) (sq_selects q) (sq_table q) (sq_key q) (sq_columns q).
Definition selects (d : dialect) (D : db value) (s : bytes) (r : row value) : Prop := exists q, read_query d s = Some q /\ answers D (map_query nullable q) r.
(** The queries with the values of their literals. *)
Definition map_squery {V W} (f : V -> W) (q : squery V) : squery W := Squery (y_extended q) (y_table q) (y_pkey q) (map (map f) (y_records q)).
Definition valued (d : dialect) (q : squery bytes) : squery (option value) := map_squery (fun s => nullable (literal_value d s)) q.
(** A name that survives quoting. *)
Definition good_name (d : dialect) (n : bytes) : Prop := lex_ident d (quote_identifier d n) = Some (n, []).
Definition good_table (d : dialect) (i : tid) : Prop := (fst i <> [] -> good_name d (fst i)) /\ good_name d (snd i).
Definition good_columns (d : dialect) (l : list bytes) : Prop := l <> [] /\ forall c, In c l -> good_name d c.
Definition dumped_columns (t : table) : list bytes := map fst (filter (fun c => negb (snd c)) (t_cols t)).
(** Names survive quoting, keys have columns, every table has a column that is not generated, and
    none is named pkey_. *)
Record names_fit (d : dialect) (cat : catalog) : Prop := {
  nf_table : forall t, In t (c_tables cat) -> good_table d (t_id t);
  nf_key : forall t k, In t (c_tables cat) -> t_pkey t = Some k -> good_columns d k;
  nf_fkey : forall f, In f (all_fks cat) -> good_columns d (f_cols f) /\ good_columns d (f_rcols f);
  nf_columns : forall t, In t (c_tables cat) -> good_columns d (dumped_columns t);
  nf_pkey : forall t, In t (c_tables cat) -> t_id t <> ([], B"pkey_") }.
(** Every query selects something, and its records consist of constants. *)
Definition queries_fit (d : dialect) (cat : catalog) (qs : list (squery bytes)) : Prop :=
  forall q, In q qs -> In (y_table q) (c_tables cat) /\ t_pkey (y_table q) = Some (y_pkey q) /\ y_records q <> []
    /\ forall r, In r (y_records q) -> List.length r = List.length (y_pkey q) /\ forall s, In s r -> read_constant d s <> None.
