(** What the queries of a subset dump mean, and what is expected of them. *)
From Verif Require Import GoStr ModelSubset.

(** ** Databases *)
Section Sem.
Context {V : Type}.
(** A row gives the values of its columns; [None] is NULL.  A database says which rows a table
    has. *)
Definition row := bytes -> option V.
Definition db := tid -> row -> Prop.
Definition same (r r' : row) : Prop := forall c, r c = r' c.
(** Values are equal: NULL equals nothing. *)
Definition equal (a b : option V) : Prop := exists v, a = Some v /\ b = Some v.
Definition same_key (key : list bytes) (r r' : row) : Prop := forall c, In c key -> equal (r c) (r' c).
(** The row [r] refers to [r'] by the foreign key. *)
Definition refers (f : fkey) (r r' : row) : Prop := forall c c', In (c, c') (combine (f_cols f) (f_rcols f)) -> equal (r c) (r' c').

(** ** Queries *)
Definition env := tid -> row.
Definition value_of (e : env) (c : colref) : option V := e (fst c) (snd c).
(** FROM ... JOIN ... ON ...: the rows [e] of the tables are combined if they fulfil the
    conditions. *)
Definition select (D : db) (s : sql_join) (e : env) : Prop :=
  D (sj_first s) (e (sj_first s))
  /\ forall t on, In (t, on) (sj_rest s) -> D t (e t) /\ forall a b, In (a, b) on -> equal (value_of e a) (value_of e b).
(** No table occurs twice, and conditions are about the tables joined so far. *)
Fixpoint scoped (known : list tid) (l : list (tid * list (colref * colref))) : Prop :=
  match l with
  | [] => True
  | (t, on) :: l' => ~ In t known /\ (forall a b, In (a, b) on -> In (fst a) (t :: known) /\ In (fst b) (t :: known)) /\ scoped (t :: known) l'
  end.
Definition well_formed (s : sql_join) : Prop := scoped [sj_first s] (sj_rest s).
(** A row of WITH name (cols) AS (VALUES ...) *)
Fixpoint row_of (cols : list bytes) (vals : list (option V)) : row := fun c =>
  match cols, vals with
  | k :: cols', v :: vals' => if beqb c k then v else row_of cols' vals' c
  | _, _ => None
  end.
Definition with_values (vs : list (bytes * list bytes * list (list (option V)))) (D : db) : db := fun i r =>
  match find (fun v => tid_eqb ([], fst (fst v)) i) vs with
  | Some (_, cols, recs) => exists rec, In rec recs /\ r = row_of cols rec
  | None => D i r
  end.
(** SELECT ... FROM table JOIN pkey_ ON key = key *)
Definition answers (D : db) (q : sql_query (option V)) (r : row) : Prop :=
  D (sq_table q) r /\ exists s e, In s (sq_selects q) /\ select (with_values (sq_values q) D) s e /\ same_key (sq_key q) r (e (sq_table q)).
Definition dumped (D : db) (cat : catalog) (ss : subsetter (option V)) (i : tid) (r : row) : Prop :=
  exists q, table_query cat ss i = Ok q /\ answers D q r.

(** ** Expectations *)
(** The rows the queries select. *)
Definition selected (D : db) (qs : list (squery (option V))) (i : tid) (r : row) : Prop :=
  D i r /\ exists q rec, In q qs /\ t_id (y_table q) = i /\ In rec (y_records q) /\ same_key (y_pkey q) r (row_of (y_pkey q) rec).
Definition keyed (cat : catalog) (i : tid) : Prop := exists t pk, In t (c_tables cat) /\ t_id t = i /\ t_pkey t = Some pk.
(** Every row to which a dumped row refers is dumped.  Tables without a primary key are not dumped
    at all, as documented. *)
Definition intact (D : db) (cat : catalog) (ss : subsetter (option V)) : Prop :=
  forall f r r', In f (all_fks cat) -> keyed cat (f_to f) -> dumped D cat ss (f_from f) r -> D (f_to f) r' -> refers f r r' -> dumped D cat ss (f_to f) r'.
(** The rows a query selects and, if it is extended, those that refer to them, directly or not. *)
Inductive related (D : db) (cat : catalog) (q : squery (option V)) : tid -> row -> Prop :=
| related_selected rec r : D (t_id (y_table q)) r -> In rec (y_records q) -> same_key (y_pkey q) r (row_of (y_pkey q) rec) -> related D cat q (t_id (y_table q)) r
| related_referrer f r r' : y_extended q = true -> In f (all_fks cat) -> related D cat q (f_to f) r' -> D (f_from f) r -> refers f r r' -> related D cat q (f_from f) r.
(** These rows and those to which they refer, directly or not. *)
Inductive required (D : db) (cat : catalog) (q : squery (option V)) : tid -> row -> Prop :=
| required_related i r : related D cat q i r -> required D cat q i r
| required_referee f r r' : In f (all_fks cat) -> required D cat q (f_from f) r -> D (f_to f) r' -> refers f r r' -> required D cat q (f_to f) r'.
Definition needed (D : db) (cat : catalog) (qs : list (squery (option V))) (i : tid) (r : row) : Prop := exists q, In q qs /\ required D cat q i r.

(** ** Assumptions *)
Record catalog_ok (cat : catalog) : Prop := {
  co_tables : NoDup (map t_id (c_tables cat));
  co_from : forall t f, In t (c_tables cat) -> In f (t_fks t) -> f_from f = t_id t;
  co_nums : NoDup (map f_num (all_fks cat));
  co_columns : forall f, In f (all_fks cat) -> List.length (f_cols f) = List.length (f_rcols f);
  co_schema : forall t, In t (c_tables cat) -> fst (t_id t) = [] -> c_cur cat = [];
  (* no table is named like the results of a query *)
  co_results : forall t n, In t (c_tables cat) -> t_id t <> result_name n }.
(** Every table referred to is in the catalog. *)
Definition closed (cat : catalog) : Prop := forall f, In f (all_fks cat) -> exists t, In t (c_tables cat) /\ t_id t = f_to f.
(** Primary keys identify the rows and are not NULL; foreign keys refer to columns that do. *)
Record db_ok (cat : catalog) (D : db) : Prop := {
  do_key : forall t pk r r', In t (c_tables cat) -> t_pkey t = Some pk -> D (t_id t) r -> D (t_id t) r' -> same_key pk r r' -> same r r';
  do_null : forall t pk r c, In t (c_tables cat) -> t_pkey t = Some pk -> D (t_id t) r -> In c pk -> r c <> None;
  do_refs : forall f r r1 r2, In f (all_fks cat) -> D (f_to f) r1 -> D (f_to f) r2 -> refers f r r1 -> refers f r r2 -> same r1 r2 }.
(** The queries are those of tables of the catalog, by their primary keys. *)
Definition queries_ok (cat : catalog) (qs : list (squery (option V))) : Prop :=
  forall q, In q qs -> In (y_table q) (c_tables cat) /\ t_pkey (y_table q) = Some (y_pkey q).
End Sem.
Arguments row : clear implicits.
Arguments db : clear implicits.

(** ** Shapes of catalogs *)
Inductive reachable (cat : catalog) (b : tid) : tid -> Prop :=
| reach_base : reachable cat b b
| reach_fkey f : In f (all_fks cat) -> reachable cat b (f_from f) -> reachable cat b (f_to f).
(** A table that has foreign keys itself is referred to by at most one foreign key of the tables
    reached, the table of the query by none. *)
Definition entered_once (cat : catalog) (b : tid) : Prop :=
  forall f h, In f (all_fks cat) -> In h (all_fks cat) -> reachable cat b (f_from f) -> f_from h = f_to f ->
  f_to f <> b /\ forall g, In g (all_fks cat) -> reachable cat b (f_from g) -> f_to g = f_to f -> g = f.
(** The tables connected with [b] by foreign keys, whatever their direction, form a tree with root
    [b]: [up] is the foreign key that connects a table with its parent. *)
Inductive connected (cat : catalog) (b : tid) : tid -> Prop :=
| con_base : connected cat b b
| con_forward f : In f (all_fks cat) -> connected cat b (f_from f) -> connected cat b (f_to f)
| con_backward f : In f (all_fks cat) -> connected cat b (f_to f) -> connected cat b (f_from f).
Definition tree (cat : catalog) (b : tid) : Prop :=
  exists (up : tid -> option fkey) (depth : tid -> nat), up b = None
  /\ forall f, In f (all_fks cat) -> connected cat b (f_from f) ->
     (up (f_from f) = Some f /\ depth (f_from f) = S (depth (f_to f))) \/ (up (f_to f) = Some f /\ depth (f_to f) = S (depth (f_from f))).

(** ** Paths *)
(** From table [a] along the foreign keys. *)
Fixpoint linked (a : tid) (l : list (fkey * tid)) : Prop :=
  match l with
  | [] => True
  | (f, b) :: l' => ((f_from f = a /\ f_to f = b) \/ (f_to f = a /\ f_from f = b)) /\ linked b l'
  end.
(** From the results of the query to the table [i], by way of its base table [b]. *)
Definition path_to (cat : catalog) (n : nat) (b i : tid) (j : join_path) : Prop :=
  List.length (j_tables j) = List.length (j_fkeys j) /\ linked (result_name n) (combine (j_fkeys j) (j_tables j))
  /\ (exists ts, j_tables j = b :: ts) /\ (exists ts, j_tables j = ts ++ [i]) /\ NoDup (j_tables j) /\ NoDup (map f_num (tl (j_fkeys j))) /\ incl (tl (j_fkeys j)) (all_fks cat).

(** ** Templates *)
(** Text without braces, or with doubled ones. *)
Inductive text_ok : bytes -> Prop :=
| text_nil : text_ok []
| text_char c s : c <> lbrace -> text_ok s -> text_ok (c :: s)
| text_doubled s : text_ok s -> text_ok (lbrace :: lbrace :: s).
(** What stands between braces, other than the star. *)
Definition name_ok (nm : bytes) : Prop := nm <> B"*" /\ ~ In rbrace nm /\ (forall s, nm <> lbrace :: s).
(** The table a name stands for. *)
Definition named (cat : catalog) (nm : bytes) : tid :=
  let '(schema, name) := match cut_byte "." nm with Some (a, b) => (a, b) | None => ([], nm) end in (if beqb schema [] then c_cur cat else schema, name).
(** Pieces of a template. *)
Inductive piece := Text (s : bytes) | Star | Name (nm : bytes).
Definition piece_ok (p : piece) : Prop := match p with Text s => text_ok s | Star => True | Name nm => name_ok nm end.
Definition render (p : piece) : bytes := match p with Text s => s | Star => B"{*}" | Name nm => lbrace :: nm ++ [rbrace] end.
