(** Specification for C111 and C112: how a database answers a SELECT statement, what other connections do meanwhile,
    and when rows refer to each other as they should. *)
From Verif Require Import GoStr ModelSq SpecSql SpecInsert SpecTokens ModelCatalog ModelDiff ModelSubset SpecSubsetText.
Notation table := ModelCatalog.table.

(** ** SELECT a, b FROM t ORDER BY c *)
Record select := Select { sl_columns : list bytes; sl_from : tid; sl_order : list bytes }.
(** Postgres allows a list without columns. *)
Definition select_list (d : dialect) (ts : toks) : option (list bytes * toks) :=
  match d, kw (B"from") ts with
  | Postgres, Some _ => Some ([], ts)
  | _, _ => names d ts
  end.
Definition read_select (d : dialect) (text : bytes) : option select :=
  let? ts := tokens d text in
  let? r := kw (B"select") ts in let? (cols, r) := select_list d r in
  let? r := kw (B"from") r in let? (i, r) := table_ref d r in
  match r with
  | [] => Some (Select cols i [])
  | _ => let? r := kw (B"order") r in let? r := kw (B"by") r in let? (o, r) := names d r in
         match r with [] => Some (Select cols i o) | _ => None end
  end.

(** ** Databases *)
(** A value is a text or NULL.  The rows of a table are in the order of its primary key. *)
Definition cell := option bytes.
Record content := Content { rows_columns : list bytes; rows : list (list cell) }.
Definition state := tid -> option content.
Definition at_column (cols : list bytes) (r : list cell) (c : bytes) : cell :=
  match find (fun p => beqb (fst p) c) (combine cols r) with Some p => snd p | None => None end.
(** A table without a schema is one of the current schema. *)
Definition located (current : bytes) (i : tid) : tid := if is_empty (fst i) then (current, snd i) else i.
Definition answer (d : dialect) (current : bytes) (st : state) (text : bytes) : option (list (list cell)) :=
  let? q := read_select d text in
  let? t := st (located current (sl_from q)) in
  if forallb (fun c => bmem c (rows_columns t)) (sl_columns q ++ sl_order q)
  then Some (map (fun r => map (at_column (rows_columns t) r) (sl_columns q)) (rows t)) else None.

(** The columns whose values are stored. *)
Fixpoint stored (l : list column) : list bytes :=
  match l with
  | [] => []
  | c :: l' => if col_generated c then stored l' else match col_expr c with [] => col_name c :: stored l' | _ => stored l' end
  end.
Definition place (current : bytes) (t : table) : tid := located current (tb_schema t, tb_name t).
Definition dumped (cols : list bytes) (t : content) : content := Content cols (map (fun r => map (at_column (rows_columns t) r) cols) (rows t)).

(** ** Other connections *)
(** They commit transactions, of which the states are given, while the queries are asked. *)
Inductive event := Commits (st : state) | Asks (q : table * bytes).
Fixpoint asked (es : list event) : list (table * bytes) :=
  match es with [] => [] | Asks q :: es' => q :: asked es' | Commits _ :: es' => asked es' end.
Fixpoint states (st : state) (es : list event) : list state :=
  match es with [] => [st] | Commits st' :: es' => st :: states st' es' | Asks _ :: es' => states st es' end.
(** What is dumped, if no query fails; [header t] is the first line of the file. *)
Fixpoint dump (d : dialect) (current : bytes) (header : table -> list bytes) (st : state) (es : list event) : option (list (tid * content)) :=
  match es with
  | [] => Some []
  | Commits st' :: es' => dump d current header st' es'
  | Asks (t, text) :: es' =>
      let? a := answer d current st text in
      let? l := dump d current header st es' in
      Some ((place current t, Content (header t) a) :: l)
  end.

(** The state when the events have happened. *)
Fixpoint after (st : state) (es : list event) : state :=
  match es with [] => st | Commits st' :: es' => after st' es' | Asks _ :: es' => after st es' end.
(** The dump is what the database was at one moment. *)
Definition of_state (current : bytes) (tables : list table) (st : state) (l : list (tid * content)) : Prop :=
  List.length l = List.length tables /\
  forall t, In t tables -> exists c, st (place current t) = Some c /\ In (place current t, dumped (stored (tb_columns t)) c) l.

(** Foreign keys: the columns of the first table refer to those of the second. *)
Record reference := Reference { rf_child : tid; rf_columns : list bytes; rf_parent : tid; rf_keys : list bytes }.
Definition refers (f : reference) (child parent : content) : Prop :=
  forall r, In r (rows child) -> (forall c, In c (rf_columns f) -> at_column (rows_columns child) r c <> None) ->
  exists p, In p (rows parent) /\ map (at_column (rows_columns parent) p) (rf_keys f) = map (at_column (rows_columns child) r) (rf_columns f).
Definition intact_state (fs : list reference) (st : state) : Prop :=
  forall f, In f fs -> forall c, st (rf_child f) = Some c -> exists p, st (rf_parent f) = Some p /\ refers f c p.
Definition intact_dump (fs : list reference) (l : list (tid * content)) : Prop :=
  forall f, In f fs -> forall c p, In (rf_child f, c) l -> In (rf_parent f, p) l -> refers f c p.
(** Rows are only added. *)
Definition grows (st st' : state) : Prop :=
  forall i c, st i = Some c -> exists c', st' i = Some c' /\ rows_columns c' = rows_columns c /\ incl (rows c) (rows c').
Fixpoint growing (st : state) (es : list event) : Prop :=
  match es with [] => True | Commits st' :: es' => grows st st' /\ growing st' es' | Asks _ :: es' => growing st es' end.

(** ** Tables whose queries can be read *)
(** The names survive quoting; the columns of primary
    keys are columns of the table. *)
Record sound (d : dialect) (t : table) : Prop := Sound {
  so_schema : tb_schema t <> [] -> good_name d (tb_schema t);
  so_name : good_name d (tb_name t);
  so_columns : forall c, In c (tb_columns t) -> good_name d (col_name c);
  so_keys : forall k, In k (tb_constraints t) -> con_type k = PRIMARY_KEY -> con_columns k <> [] /\ incl (con_columns k) (map col_name (tb_columns t)) }.
Definition something_stored (d : dialect) (t : table) : Prop := stored (tb_columns t) <> [] \/ d = Postgres.
