(** Specification of the INSERT and UPDATE statements of the four databases: a reader
    for their text and what they do to a table.  Nothing here refers to the model of
    batch_insert.go. *)
From Verif Require Import GoStr SpecSql.

(** ** Reading *)
Definition andthen {A C} (m : option A) (f : A -> option C) : option C :=
  match m with Some a => f a | None => None end.
Notation "'let?' p := m 'in' k" := (andthen m (fun p => k)) (at level 200, p pattern, right associativity).

(** A list of at least one item with separators. *)
Fixpoint read_list {A} (fuel : nat) (item : bytes -> option (A * bytes)) (sep s : bytes) : option (list A * bytes) :=
  match fuel with
  | O => None
  | S n =>
      let? (a, r) := item s in
      match strip_prefix sep r with
      | Some r' => let? (l, r'') := read_list n item sep r' in Some (a :: l, r'')
      | None => Some ([a], r)
      end
  end.
Definition items {A} (item : bytes -> option (A * bytes)) (sep s : bytes) : option (list A * bytes) :=
  read_list (S (List.length s)) item sep s.

(** schema.table, table, or with a column at the end *)
Definition read_path (d : dialect) (s : bytes) : option (list bytes * bytes) := items (lex_ident d) (B".") s.

(** A parameter: by position, or with its number. *)
Inductive param := Next | Number (n : nat).
Fixpoint take_digits (s : bytes) : bytes * bytes :=
  match s with
  | c :: s' => if is_digit c then let '(a, b) := take_digits s' in (c :: a, b) else ([], s)
  | [] => ([], [])
  end.
Definition read_number (s : bytes) : option (param * bytes) :=
  let '(w, r) := take_digits s in
  let? n := dec_N w in Some (Number (N.to_nat n), r).
Definition read_param (d : dialect) (s : bytes) : option (param * bytes) :=
  match d with
  | Postgres => let? r := strip_prefix (B"$") s in read_number r
  | SQLServer => let? r := strip_prefix (B"@p") s in read_number r
  | _ => let? r := strip_prefix (B"?") s in Some (Next, r)
  end.
(** (?, ?), (?, ?) *)
Definition read_row (d : dialect) (s : bytes) : option (list param * bytes) :=
  let? r := strip_prefix (B"(") s in
  let? (l, r) := items (read_param d) (B", ") r in
  let? r := strip_prefix (B")") r in Some (l, r).
Definition read_rows (d : dialect) (s : bytes) : option (list (list param) * bytes) :=
  items (read_row d) (B", ") s.

(** The argument that each parameter stands for, counted from 0; [k] is the number of
    positional parameters before. *)
Fixpoint resolve_row (k : nat) (l : list param) : list nat * nat :=
  match l with
  | [] => ([], k)
  | Next :: l' => let '(x, k') := resolve_row (S k) l' in (k :: x, k')
  | Number n :: l' => let '(x, k') := resolve_row k l' in (pred n :: x, k')
  end.
Fixpoint resolve (k : nat) (rows : list (list param)) : list (list nat) :=
  match rows with
  | [] => []
  | l :: rows' => let '(x, k') := resolve_row k l in x :: resolve k' rows'
  end.

(** What happens to a row whose key exists. *)
Inductive source := New (c : bytes) | Old (c : bytes).
Inductive clause :=
| Plain                                                        (* an error *)
| OnConflict (keys : list bytes) (sets : list (bytes * source))
| OnDuplicateKey (sets : list (bytes * source))
| NotExists (same : list (bytes * bytes)).                     (* column of the table, column of the row *)

Record insert := {
  ins_table : list bytes;
  ins_columns : list bytes;
  ins_rows : list (list nat);
  ins_clause : clause
}.
Record update_from := {
  upd_table : list bytes;
  upd_sets : list (bytes * source);
  upd_columns : list bytes;
  upd_rows : list (list nat);
  upd_same : list (bytes * bytes)
}.
Inductive statement := Insert (i : insert) | Update (u : update_from) | Unrelated.

Definition lists_eqb (a b : list bytes) : bool :=
  (List.length a =? List.length b) && forallb (fun p => beqb (fst p) (snd p)) (combine a b).

(** a = EXCLUDED.b *)
Definition read_set_excluded (d : dialect) (s : bytes) : option ((bytes * source) * bytes) :=
  let? (a, r) := lex_ident d s in
  let? r := strip_prefix (B" = EXCLUDED.") r in
  let? (b, r) := lex_ident d r in Some ((a, New b), r).
(** a = VALUES(b), or a = b for the present value *)
Definition read_set_values (d : dialect) (s : bytes) : option ((bytes * source) * bytes) :=
  let? (a, r) := lex_ident d s in
  match strip_prefix (B" = VALUES(") r with
  | Some r => let? (b, r) := lex_ident d r in let? r := strip_prefix (B")") r in Some ((a, New b), r)
  | None => let? r := strip_prefix (B" = ") r in let? (b, r) := lex_ident d r in Some ((a, Old b), r)
  end.
(** a = tmp_.b *)
Definition read_set_tmp (d : dialect) (s : bytes) : option ((bytes * source) * bytes) :=
  let? (a, r) := lex_ident d s in
  let? r := strip_prefix (B" = tmp_.") r in
  let? (b, r) := lex_ident d r in Some ((a, New b), r).
(** table.a = tmp_.b *)
Definition read_same (d : dialect) (table : list bytes) (s : bytes) : option ((bytes * bytes) * bytes) :=
  let? (p, r) := read_path d s in
  if lists_eqb (removelast p) table then
    let? r := strip_prefix (B" = tmp_.") r in
    let? (b, r) := lex_ident d r in Some ((last p [], b), r)
  else None.

Definition ends {A} (a : A) (r : bytes) : option A := match r with [] => Some a | _ => None end.

(** The part of an INSERT after its rows. *)
Definition read_clause (d : dialect) (r : bytes) : option clause :=
  match r with
  | [] => Some Plain
  | _ =>
      match d with
      | SQLite | Postgres =>
          let? r := strip_prefix (B" ON CONFLICT (") r in
          let? (keys, r) := items (lex_ident d) (B", ") r in
          let? r := strip_prefix (B") ") r in
          match strip_prefix (B"DO NOTHING") r with
          | Some r => ends (OnConflict keys []) r
          | None =>
              let? r := strip_prefix (B"DO UPDATE SET ") r in
              let? (sets, r) := items (read_set_excluded d) (B", ") r in
              ends (OnConflict keys sets) r
          end
      | MySQL =>
          let? r := strip_prefix (B" ON DUPLICATE KEY UPDATE ") r in
          let? (sets, r) := items (read_set_values d) (B", ") r in
          ends (OnDuplicateKey sets) r
      | _ => None
      end
  end.

Definition read_insert (d : dialect) (s : bytes) : option insert :=
  let? r := strip_prefix (B"INSERT INTO ") s in
  let? (table, r) := read_path d r in
  let? r := strip_prefix (B" (") r in
  let? (columns, r) := items (lex_ident d) (B", ") r in
  let? r := strip_prefix (B")") r in
  match (match d with SQLServer => strip_prefix (B" SELECT ") r | _ => None end) with
  | Some r =>
      (* INSERT INTO t (a) SELECT a FROM (VALUES ...) AS tmp_ (a) WHERE NOT EXISTS (SELECT 1 FROM t WHERE ...) *)
      let? (selected, r) := items (lex_ident d) (B", ") r in
      let? r := strip_prefix (B" FROM (VALUES ") r in
      let? (rows, r) := read_rows d r in
      let? r := strip_prefix (B") AS tmp_ (") r in
      let? (named, r) := items (lex_ident d) (B", ") r in
      let? r := strip_prefix (B") WHERE NOT EXISTS (SELECT 1 FROM ") r in
      let? (table', r) := read_path d r in
      let? r := strip_prefix (B" WHERE ") r in
      let? (same, r) := items (read_same d table) (B" AND ") r in
      let? r := strip_prefix (B")") r in
      if lists_eqb selected columns && lists_eqb named columns && lists_eqb table' table then
        ends {| ins_table := table; ins_columns := columns; ins_rows := resolve 0 rows; ins_clause := NotExists same |} r
      else None
  | None =>
      let? r := match d with
                | Postgres => match strip_prefix (B" OVERRIDING SYSTEM VALUE VALUES ") r with
                              | Some r => Some r | None => strip_prefix (B" VALUES ") r end
                | _ => strip_prefix (B" VALUES ") r
                end in
      let? (rows, r) := read_rows d r in
      let? c := read_clause d r in
      Some {| ins_table := table; ins_columns := columns; ins_rows := resolve 0 rows; ins_clause := c |}
  end.

Definition read_update (d : dialect) (s : bytes) : option update_from :=
  match d with
  | SQLServer =>
      let? r := strip_prefix (B"UPDATE ") s in
      let? (table, r) := read_path d r in
      let? r := strip_prefix (B" WITH (UPDLOCK, SERIALIZABLE) SET ") r in
      let? (sets, r) := items (read_set_tmp d) (B", ") r in
      let? r := strip_prefix (B" FROM ") r in
      let? (table', r) := read_path d r in
      let? r := strip_prefix (B" JOIN (VALUES ") r in
      let? (rows, r) := read_rows d r in
      let? r := strip_prefix (B") AS tmp_ (") r in
      let? (named, r) := items (lex_ident d) (B", ") r in
      let? r := strip_prefix (B") ON ") r in
      let? (same, r) := items (read_same d table) (B" AND ") r in
      if lists_eqb table' table then
        ends {| upd_table := table; upd_sets := sets; upd_columns := named; upd_rows := resolve 0 rows; upd_same := same |} r
      else None
  | _ => None
  end.

Definition read_statement (d : dialect) (s : bytes) : option statement :=
  if has_prefix s (B"INSERT ") then let? i := read_insert d s in Some (Insert i)
  else if has_prefix s (B"UPDATE ") then let? u := read_update d s in Some (Update u)
  else if has_prefix s (B"SET ") || has_prefix s (B"SELECT ") then Some Unrelated
  else None.

(** ** Meaning *)
(** A value, [None] being NULL; a row gives every column of the table a value. *)
Definition val := option bytes.
Definition trow := bytes -> val.
Definition table := list trow.

(** The columns [cols] get the values [vals]. *)
Fixpoint assign (cols : list bytes) (vals : list val) (r : trow) : trow :=
  match cols, vals with
  | c :: cols', v :: vals' => fun x => if beqb x c then v else assign cols' vals' r x
  | _, _ => r
  end.
Definition set_columns (sets : list (bytes * source)) (new old : trow) : trow :=
  fold_left (fun (r : trow) p => fun x => if beqb x (fst p) then match snd p with New c => new c | Old c => old c end else r x) sets old.

(** SQL equality; NULL is equal to nothing. *)
Definition sql_eqb (a b : val) : bool :=
  match a, b with Some x, Some y => beqb x y | _, _ => false end.
(** Equal in all columns of [keys]. *)
Definition same_key (keys : list bytes) (a b : trow) : bool := forallb (fun k => sql_eqb (a k) (b k)) keys.

(** A table with its key (no key: []), and the values of columns that are not given. *)
Record schema := { sc_path : list bytes; sc_key : list bytes; sc_default : trow }.

Definition exists_key (keys : list bytes) (r : trow) (t : table) : bool :=
  match keys with [] => false | _ => existsb (fun x => same_key keys x r) t end.
(** A plain insertion of one row fails if its key exists. *)
Definition insert_row (sc : schema) (r : trow) (t : table) : option table :=
  if exists_key (sc_key sc) r t then None else Some (t ++ [r]).
(** Insert one row, or set columns of the row with the same key. *)
Definition insert_or_set (sc : schema) (sets : list (bytes * source)) (r : trow) (t : table) : table :=
  if exists_key (sc_key sc) r t
  then map (fun x => if same_key (sc_key sc) x r then set_columns sets r x else x) t
  else t ++ [r].
Definition joined (same : list (bytes * bytes)) (x r : trow) : bool :=
  forallb (fun p => sql_eqb (x (fst p)) (r (snd p))) same.

Definition values_of (args : list val) (idx : list nat) : list val := map (fun i => nth i args None) idx.

Definition all_present {V} (args : list V) (rows : list (list nat)) (width : nat) : bool :=
  forallb (fun l => (List.length l =? width) && forallb (fun i => i <? List.length args) l) rows
  && (List.length (concat rows) =? List.length args).

Fixpoint insert_rows (sc : schema) (rs : list trow) (t : table) : option table :=
  match rs with
  | [] => Some t
  | r :: rs' => let? t' := insert_row sc r t in insert_rows sc rs' t'
  end.

(** Execution; [None] is an error: a wrong table, a wrong number of arguments, an ON
    CONFLICT target that is not the key, or a duplicate key. *)
Definition exec_insert (sc : schema) (i : insert) (args : list val) (t : table) : option table :=
  let rs := map (fun idx => assign (ins_columns i) (values_of args idx) (sc_default sc)) (ins_rows i) in
  if lists_eqb (ins_table i) (sc_path sc) && all_present args (ins_rows i) (List.length (ins_columns i)) then
    match ins_clause i with
    | Plain => insert_rows sc rs t
    | OnConflict keys sets =>
        if lists_eqb keys (sc_key sc) then Some (fold_left (fun t r => insert_or_set sc sets r t) rs t) else None
    | OnDuplicateKey sets => Some (fold_left (fun t r => insert_or_set sc sets r t) rs t)
    | NotExists same => insert_rows sc (filter (fun r => negb (existsb (fun x => joined same x r) t)) rs) t
    end
  else None.
Definition exec_update (sc : schema) (u : update_from) (args : list val) (t : table) : option table :=
  let rs := map (fun idx => assign (upd_columns u) (values_of args idx) (sc_default sc)) (upd_rows u) in
  if lists_eqb (upd_table u) (sc_path sc) && all_present args (upd_rows u) (List.length (upd_columns u)) then
    Some (map (fun x => match find (fun r => joined (upd_same u) x r) rs with
                        | Some r => set_columns (upd_sets u) r x
                        | None => x
                        end) t)
  else None.
Definition exec_statement (sc : schema) (s : statement) (args : list val) (t : table) : option table :=
  match s with
  | Insert i => exec_insert sc i args t
  | Update u => exec_update sc u args t
  | Unrelated => Some t
  end.

(** ** What an upsert is *)
(** Each row of the table with the key of an incoming row takes over its columns
    [cols]; the incoming rows without a counterpart are added; nothing else changes. *)
Definition takes_over (cols : list bytes) (new old : trow) : trow :=
  fun x => if bmem x cols then new x else old x.
Definition upserted (keys cols : list bytes) (new : list trow) (t : table) : table :=
  map (fun x => match find (fun r => same_key keys x r) new with
                | Some r => takes_over cols r x
                | None => x
                end) t
  ++ filter (fun r => negb (existsb (fun x => same_key keys x r) t)) new.
Definition same_row (a b : trow) : Prop := forall c, a c = b c.
Definition same_table (a b : table) : Prop := Forall2 same_row a b.

(** ** What is sent *)
(** The rows that a sequence of statements with arguments inserts, value by value;
    [None] is a parameter without an argument. *)
Definition delivered {V} (d : dialect) (sent : list (bytes * list V)) : list (list (option V)) :=
  flat_map (fun s => match read_statement d (fst s) with
                     | Some (Insert i) => map (map (nth_error (snd s))) (ins_rows i)
                     | _ => []
                     end) sent.
(** A statement that fits its arguments: the database can read it, it is about the
    table and the columns, and every parameter has an argument and every argument a
    parameter. *)
Definition fits {V} (d : dialect) (path columns : list bytes) (s : bytes * list V) : Prop :=
  match read_statement d (fst s) with
  | Some (Insert i) => ins_table i = path /\ ins_columns i = columns
                       /\ all_present (snd s) (ins_rows i) (List.length columns) = true
  | Some (Update u) => upd_table u = path /\ upd_columns u = columns
                       /\ all_present (snd s) (upd_rows u) (List.length columns) = true
  | Some Unrelated => True
  | None => False
  end.
(** The number of rows of a statement. *)
Definition row_count {V} (d : dialect) (s : bytes * list V) : option nat :=
  match read_statement d (fst s) with
  | Some (Insert i) => Some (List.length (ins_rows i))
  | Some (Update u) => Some (List.length (upd_rows u))
  | _ => None
  end.
(** How many parameters a statement may have; 0 if that is not known. *)
Definition parameter_limit (d : dialect) : Z :=
  match d with
  | SQLite => 32766 | Postgres => 65535 | MySQL => 65535 | SQLServer => 2100 | Other => 0
  end.
(** The database executes one statement after the other. *)
Fixpoint run (sc : schema) (d : dialect) (sent : list (bytes * list val)) (t : table) : option table :=
  match sent with
  | [] => Some t
  | (text, args) :: l => let? s := read_statement d text in let? t' := exec_statement sc s args t in run sc d l t'
  end.
(** No two rows have the same key. *)
Definition distinct (keys : list bytes) (rs : list trow) : Prop :=
  ForallOrdPairs (fun a b => same_key keys a b = false) rs.

(** ** Sequences and identity columns *)
(** pg_get_serial_sequence: its first argument is read as the name of a table, its
    second argument is the name of a column as it is. *)
Definition serial_sequence (table column : bytes) : option (list bytes * bytes) :=
  let? (p, r) := read_path Postgres table in ends (p, column) r.
(** The sequences that are set: SELECT setval(pg_get_serial_sequence($1, $2), ...). *)
Definition sequences (sent : list (bytes * list bytes)) : list (option (list bytes * bytes)) :=
  flat_map (fun s => match strip_prefix (B"SELECT setval(pg_get_serial_sequence($1, $2), ") (fst s), snd s with
                     | Some _, [table; column] => [serial_sequence table column]
                     | _, _ => []
                     end) sent.
(** The tables with IDENTITY_INSERT on. *)
Definition read_identity (d : dialect) (text : bytes) : option (list bytes * bool) :=
  let? r := strip_prefix (B"SET IDENTITY_INSERT ") text in
  let? (p, r) := read_path d r in
  match strip_prefix (B" ON") r with
  | Some r => ends (p, true) r
  | None => let? r := strip_prefix (B" OFF") r in ends (p, false) r
  end.
Definition identity_on {V} (d : dialect) (sent : list (bytes * list V)) : list (list bytes) :=
  fold_left (fun on s => match read_identity d (fst s) with
                         | Some (p, true) => p :: on
                         | Some (p, false) => filter (fun q => negb (lists_eqb q p)) on
                         | None => on
                         end) sent [].
