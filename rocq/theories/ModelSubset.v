(** Model of the subsetter, subsetter.go: the query template, the search for joins, and the
    queries for dumping the tables.  Only the in-memory variant exists (NewInMemorySubsetter). *)
From Verif Require Import GoStr ModelSq ModelDdl.

(** ** The catalog *)
Definition tid := (bytes * bytes)%type.                 (* schema, name *)
Definition tid_eqb (a b : tid) : bool := beqb (fst a) (fst b) && beqb (snd a) (snd b).
(** A foreign key.  [f_num] stands for the address of the constraint. *)
Record fkey := Fkey { f_num : nat; f_from : tid; f_cols : list bytes; f_to : tid; f_rcols : list bytes }.
(** A table: its primary key, its columns with whether they are generated, and its foreign keys.
    Other constraints are skipped by the search (335-337, 396-398). *)
Record table := Table { t_id : tid; t_pkey : option (list bytes); t_cols : list (bytes * bool); t_fks : list fkey }.
Record catalog := Catalog { c_cur : bytes; c_tables : list table }.
Definition find_table (cat : catalog) (i : tid) : option table := find (fun t => tid_eqb (t_id t) i) (c_tables cat).
Definition all_fks (cat : catalog) : list fkey := flat_map t_fks (c_tables cat).
(** The map referencedBy, subsetter.go:58-72. *)
Definition referenced_by (cat : catalog) (i : tid) : list fkey := filter (fun f => tid_eqb (f_to f) i) (all_fks cat).

(** ** The query template, subsetter.go:97-153 and 193-197 *)
Fixpoint index_byte (c : ascii) (s : bytes) : option nat :=
  match s with
  | [] => None
  | x :: s' => if ceqb x c then Some 0 else match index_byte c s' with Some i => Some (S i) | None => None end
  end.
Definition lbrace : ascii := "{". Definition rbrace : ascii := "}".
(** A position found: None is -1.  The tests are starStart > 0 and tableStart > 0. *)
Definition span := option (nat * nat).
Definition positive (p : span) : bool := match p with Some (S _, _) => true | _ => false end.
(** The loop 106-131 for a query of length [n], of which [str] is left. *)
Fixpoint scan (fuel n : nat) (str : bytes) (star tbl : span) : result (span * span) :=
  match fuel with
  | 0 => Panic
  | S fuel' =>
    match index_byte lbrace str with
    | None => Ok (star, tbl)
    | Some i =>
        match nth_error str (i + 1) with
        | None => Panic                                   (* 107: index out of range *)
        | Some c =>
            if ceqb c lbrace then scan fuel' n (skipn (i + 2) str) star tbl
            else
              let str := skipn i str in
              match index_byte rbrace str with
              | None => Err
              | Some j =>
                  let start := n - List.length str in
                  let sp := Some (start, start + j + 1) in
                  let rest := skipn (j + 1) str in
                  if beqb (firstn (j + 1) str) (B"{*}") then
                    if positive star then Err else scan fuel' n rest sp tbl
                  else if positive tbl then Err else scan fuel' n rest star sp
              end
        end
    end
  end.
(** query[a:b] *)
Definition slice (a b : nat) (s : bytes) : result bytes :=
  if (a <=? b) && (b <=? List.length s) then Ok (firstn (b - a) (skipn a s)) else Panic.
Definition full_name (d : dialect) (i : tid) : bytes :=
  (if beqb (fst i) [] then [] else quote_identifier d (fst i) ++ B".") ++ quote_identifier d (snd i).
(** The base table and the text sent to the database. *)
Definition expand (d : dialect) (cat : catalog) (query : bytes) : result (table * list bytes * bytes) :=
  bindr (scan (S (List.length query)) (List.length query) query None None) (fun m =>
  let '(star, tbl) := m in
  match tbl with
  | None => Panic                                         (* 133: query[0:-2] *)
  | Some (ts, te) =>
      bindr (slice (ts + 1) (te - 1) query) (fun name =>
      let '(schema, name) := match cut_byte "." name with Some (a, b) => (a, b) | None => ([], name) end in
      let schema := if beqb schema [] then c_cur cat else schema in
      match find_table cat (schema, name) with
      | None => Err
      | Some t =>
          match t_pkey t with
          | None => Err
          | Some pk =>
              match star with
              | None => Panic                             (* 153: query[:-1] *)
              | Some (ss, se) =>
                  bindr (slice 0 ss query) (fun before =>
                  bindr (slice se ts query) (fun between =>
                  bindr (slice te (List.length query) query) (fun after =>
                  Ok (t, pk, before
                        ++ join (B", ") (map (fun c => full_name d (t_id t) ++ B"." ++ quote_identifier d c) pk)
                        ++ between ++ full_name d (t_id t) ++ after))))
              end
          end
      end)
  end).

(** ** The search, subsetter.go:303-438 *)
Record join_path := Path { j_tables : list tid; j_fkeys : list fkey }.
(** tableJoins *)
Definition joins := list (tid * list join_path).
Definition get_joins (i : tid) (m : joins) : list join_path :=
  match find (fun p => tid_eqb (fst p) i) m with Some (_, l) => l | None => [] end.
(** tableJoins[i] = append(tableJoins[i], new...) *)
Fixpoint add_joins (i : tid) (new : list join_path) (m : joins) : joins :=
  match m with
  | [] => [(i, new)]
  | (k, l) :: m' => if tid_eqb k i then (k, l ++ new) :: m' else (k, l) :: add_joins i new m'
  end.
(** 345-366, 406-427: every path not containing the table is prolonged *)
Definition extend (i : tid) (f : fkey) (base : list join_path) : list join_path :=
  map (fun j => Path (j_tables j ++ [i]) (j_fkeys j ++ [f])) (filter (fun j => negb (existsb (tid_eqb i) (j_tables j))) base).
Definition seen (f : fkey) (visited : list nat) : bool := existsb (Nat.eqb (f_num f)) visited.
(** [Fuel] cannot happen (C48). *)
Inductive search (A : Type) := Found (a : A) | Crash | Fuel.
Arguments Found {A} a. Arguments Crash {A}. Arguments Fuel {A}.
Definition state := (list nat * joins)%type.
(** 393-433.  The head of [todo] is the end of toVisit. *)
Fixpoint forward (fuel : nat) (cat : catalog) (todo : list fkey) (visited : list nat) (m : joins) : search state :=
  match todo, fuel with
  | [], _ => Found (visited, m)
  | _, 0 => Fuel
  | f :: todo', S fuel' =>
      if seen f visited then forward fuel' cat todo' visited m
      else
        let m' := add_joins (f_to f) (extend (f_to f) f (get_joins (f_from f) m)) m in
        match find_table cat (f_to f) with
        | None => Crash                                   (* 430: the table is nil *)
        | Some t => forward fuel' cat (rev (t_fks t) ++ todo') (f_num f :: visited) m'
        end
  end.
(** 332-370 *)
Fixpoint backward (fuel : nat) (cat : catalog) (todo : list fkey) (visited : list nat) (m : joins) : search state :=
  match todo, fuel with
  | [], _ => Found (visited, m)
  | _, 0 => Fuel
  | f :: todo', S fuel' =>
      if seen f visited then backward fuel' cat todo' visited m
      else
        let m' := add_joins (f_from f) (extend (f_from f) f (get_joins (f_to f) m)) m in
        backward fuel' cat (rev (referenced_by cat (f_from f)) ++ todo') (f_num f :: visited) m'
  end.
(** 371-391: the foreign keys of all tables found, in the order of the tables' names. *)
Fixpoint insert_tid (i : tid) (l : list tid) : list tid :=
  match l with
  | [] => [i]
  | k :: l' => if bltb (fst i) (fst k) || (beqb (fst i) (fst k) && bltb (snd i) (snd k)) then i :: l else k :: insert_tid i l'
  end.
Definition sort_tids (l : list tid) : list tid := fold_right insert_tid [] l.
Definition fks_of (cat : catalog) (i : tid) : list fkey := match find_table cat i with Some t => t_fks t | None => [] end.
Definition fuel_for (cat : catalog) (todo : list fkey) : nat :=
  List.length todo + fold_right (fun f n => S (List.length (fks_of cat (f_to f)) + List.length (referenced_by cat (f_from f))) + n) 0 (all_fks cat).
(** 305-317: the name of the query's results *)
Definition result_name (n : nat) : tid := ([], B"query" ++ nat_dec n ++ B"_").
Definition base_path (n : nat) (t : table) (pk : list bytes) : join_path :=
  Path [t_id t] [Fkey 0 (result_name n) pk (t_id t) pk].
(** The joins found for the [n]-th query. *)
Definition subset_joins (cat : catalog) (extended : bool) (n : nat) (t : table) (pk : list bytes) : search joins :=
  let m := [(t_id t, [base_path n t pk])] in
  let continue todo visited m := match forward (fuel_for cat todo) cat todo visited m with Found (_, m) => Found m | Crash => Crash | Fuel => Fuel end in
  if extended then
    let todo := rev (referenced_by cat (t_id t)) in
    match backward (fuel_for cat todo) cat todo [] m with
    | Found (visited, m) => continue (rev (flat_map (fks_of cat) (sort_tids (map fst m)))) visited m
    | Crash => Crash | Fuel => Fuel
    end
  else continue (rev (t_fks t)) [] m.

(** ** The subsetter *)
(** The results of a query: the columns of the primary key, and the records. *)
Record qresult (V : Type) := Qresult { q_cols : list bytes; q_records : list (list V) }.
Arguments Qresult {V}. Arguments q_cols {V}. Arguments q_records {V}.
Record subsetter (V : Type) := Subsetter { s_results : list (qresult V); s_joins : joins; s_nums : list (tid * list nat) }.
Arguments Subsetter {V}. Arguments s_results {V}. Arguments s_joins {V}. Arguments s_nums {V}.
Definition empty_subsetter {V} : subsetter V := Subsetter [] [] [].
Definition get_nums (i : tid) (m : list (tid * list nat)) : list nat := match find (fun p => tid_eqb (fst p) i) m with Some (_, l) => l | None => [] end.
Fixpoint add_num (i : tid) (n : nat) (m : list (tid * list nat)) : list (tid * list nat) :=
  match m with
  | [] => [(i, [n])]
  | (k, l) :: m' => if tid_eqb k i then (k, l ++ [n]) :: m' else (k, l) :: add_num i n m'
  end.
(** 303-438 after the query gave [records] for table [t] *)
Definition add_subset {V} (cat : catalog) (extended : bool) (t : table) (pk : list bytes) (records : list (list V)) (ss : subsetter V) : search (subsetter V) :=
  let results := s_results ss ++ [Qresult pk records] in
  match subset_joins cat extended (List.length results) t pk with
  | Found m => Found (Subsetter results (fold_left (fun a p => add_joins (fst p) (snd p) a) m (s_joins ss))
                        (fold_left (fun a p => add_num (fst p) (List.length results - 1) a) m (s_nums ss)))
  | Crash => Crash | Fuel => Fuel
  end.

(** ** The queries *)
(** FROM first JOIN table ON column = column AND ... JOIN ... *)
Definition colref := (tid * bytes)%type.
Record sql_join := SqlJoin { sj_first : tid; sj_rest : list (tid * list (colref * colref)) }.
Fixpoint pair_columns (t1 : tid) (c1 : list bytes) (t2 : tid) (c2 : list bytes) : option (list (colref * colref)) :=
  match c1, c2 with
  | [], _ => Some []
  | _ :: _, [] => None                                    (* columns2[i] out of range *)
  | a :: c1', b :: c2' => match pair_columns t1 c1' t2 c2' with Some l => Some (((t2, b), (t1, a)) :: l) | None => None end
  end.
(** join.toSQL, 651-696: [fs] are the foreign keys from the last to the first, [cur] is the
    table reached *)
Fixpoint sql_rest (cur : tid) (fs : list fkey) : option (list (tid * list (colref * colref))) :=
  match fs with
  | [] => Some []
  | f :: fs' =>
      match (if tid_eqb cur (f_from f) then Some (f_from f, f_cols f, f_to f, f_rcols f)
             else if tid_eqb cur (f_to f) then Some (f_to f, f_rcols f, f_from f, f_cols f)
             else None) with                              (* 672: panic("broken chain") *)
      | None => None
      | Some (t1, c1, t2, c2) =>
          match pair_columns t1 c1 t2 c2, sql_rest t2 fs' with
          | Some on, Some l => Some ((t2, on) :: l)
          | _, _ => None
          end
      end
  end.
Definition to_sql (j : join_path) : option sql_join :=
  match rev (j_tables j) with
  | [] => None
  | last :: _ => match sql_rest last (rev (j_fkeys j)) with Some l => Some (SqlJoin last l) | None => None end
  end.
Fixpoint all_some {A} (l : list (option A)) : option (list A) :=
  match l with
  | [] => Some []
  | Some a :: l' => match all_some l' with Some r => Some (a :: r) | None => None end
  | None :: _ => None
  end.
(** Subsetter.Query, 443-587: the tables WITH ... AS (VALUES ...), the selects of pkey_, the
    table, its key and the columns dumped. *)
Record sql_query (V : Type) := SqlQuery {
  sq_values : list (bytes * list bytes * list (list V));
  sq_selects : list sql_join;
  sq_table : tid;
  sq_key : list bytes;
  sq_columns : list bytes }.
Arguments SqlQuery {V}. Arguments sq_values {V}. Arguments sq_selects {V}. Arguments sq_table {V}. Arguments sq_key {V}. Arguments sq_columns {V}.
(** [Err] stands for the empty text. *)
Definition table_query {V} (cat : catalog) (ss : subsetter V) (i : tid) : result (sql_query V) :=
  let i := (if beqb (fst i) [] then c_cur cat else fst i, snd i) in
  match find_table cat i with
  | None => Err
  | Some t =>
      match t_pkey t with
      | None => Err
      | Some pk =>
          match get_nums i (s_nums ss) with
          | [] => Err
          | nums =>
              match all_some (map (fun n => nth_error (s_results ss) n) nums), all_some (map to_sql (get_joins i (s_joins ss))) with
              | Some rs, Some sels =>
                  Ok (SqlQuery (map (fun p => (snd (result_name (S (fst p))), q_cols (snd p), q_records (snd p))) (combine nums rs))
                        sels (t_id t) pk (map fst (filter (fun c => negb (snd c)) (t_cols t))))
              | _, _ => Panic
              end
          end
      end
  end.
(** Subsetter.Tables, 590-615 *)
Definition subset_tables {V} (cat : catalog) (ss : subsetter V) : list tid :=
  filter (fun i => match find_table cat i with Some t => match t_pkey t with Some _ => true | None => false end | None => false end)
    (sort_tids (map fst (s_joins ss))).
(** dump_cmd.go:228-243: the queries one after the other, each with what it selected. *)
Record squery (V : Type) := Squery { y_extended : bool; y_table : table; y_pkey : list bytes; y_records : list (list V) }.
Arguments Squery {V}. Arguments y_extended {V}. Arguments y_table {V}. Arguments y_pkey {V}. Arguments y_records {V}.
Fixpoint add_subsets {V} (cat : catalog) (qs : list (squery V)) (ss : subsetter V) : search (subsetter V) :=
  match qs with
  | [] => Found ss
  | q :: qs' =>
      match add_subset cat (y_extended q) (y_table q) (y_pkey q) (y_records q) ss with
      | Found ss' => add_subsets cat qs' ss'
      | Crash => Crash | Fuel => Fuel
      end
  end.
