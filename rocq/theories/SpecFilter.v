(** What the conditions of a query say about a row.  Nothing here refers to the model of the Go code,
    except for the record of the filter. *)
From Verif Require Import GoStr SpecSql SpecInsert SpecTokens ModelIntrospect.

(** AND column [NOT] IN (string, ...), any number of times. *)
Record condition := Condition { cd_column : list bytes; cd_not : bool; cd_names : list bytes }.
Definition a_string (ts : toks) : option (bytes * toks) := match ts with Str v :: r => Some (v, r) | _ => None end.
(** Only SQLite reads an empty list. *)
Definition strings (d : dialect) (ts : toks) : option (list bytes * toks) :=
  match d, sym ")" ts with
  | SQLite, Some _ => Some ([], ts)
  | _, _ => tlist a_string (sym ",") ts
  end.
Definition a_condition (d : dialect) (ts : toks) : option (condition * toks) :=
  let? (p, r) := path d ts in
  let '(n, r) := match kw (B"NOT") r with Some r' => (true, r') | None => (false, r) end in
  let? r := kw (B"IN") r in
  let? (l, r) := parens (strings d) r in
  Some (Condition p n l, r).
Definition conditions (d : dialect) (s : bytes) : option (list condition) :=
  let? ts := tokens d s in
  let? (l, r) := many (kw (B"AND")) (a_condition d) ts in
  match r with [] => Some l | _ => None end.
(** A row of the tables: the columns with the name of the schema and of the table. *)
Definition value_of (d : dialect) (s t : bytes) (p : list bytes) : option bytes :=
  let col (x : list string) := map B x in
  let is (x : list string) := if list_eq_dec (list_eq_dec ascii_dec) p (col x) then true else false in
  match d with
  | SQLite => if is ["m"; "tbl_name"]%string then Some t else None
  | Postgres => if is ["schemas"; "nspname"]%string then Some s else if is ["tables"; "relname"]%string then Some t else None
  | MySQL => if is ["table_schema"]%string then Some s else if is ["table_name"]%string then Some t else None
  | _ => if is ["schemas"; "name"]%string then Some s else if is ["tables"; "name"]%string then Some t else None
  end.
Fixpoint all_hold (d : dialect) (s t : bytes) (l : list condition) : option bool :=
  match l with
  | [] => Some true
  | c :: l' =>
      let? v := value_of d s t (cd_column c) in
      let? b := all_hold d s t l' in
      Some (xorb (cd_not c) (bmem v (cd_names c)) && b)
  end.
(** Is the row of the table selected?  [None]: the database does not understand the query. *)
Definition selected (d : dialect) (s : bytes) (schema table : bytes) : option bool :=
  let? l := conditions d s in all_hold d schema table l.

(** What the filter means: the names that are listed, or those that are not excluded. *)
Definition meant (l ex : list bytes) (n : bytes) : bool :=
  match l with [] => negb (bmem n ex) | _ => bmem n l end.
Definition table_meant (d : dialect) (f : choice) (schema table : bytes) : bool :=
  match d with SQLite => true | _ => meant (f_schemas f) (f_exschemas f) schema end && meant (f_tables f) (f_extables f) table.
(** The names that count. *)
Definition counting (l ex : list bytes) : list bytes := match l with [] => ex | _ => l end.
Definition names_given (d : dialect) (f : choice) : list bytes :=
  match d with SQLite => [] | _ => counting (f_schemas f) (f_exschemas f) end ++ counting (f_tables f) (f_extables f).
(** Names that can be written: without two quotes that follow each other (before another character),
    and without backslash for MySQL. *)
Definition writable (d : dialect) (n : bytes) : Prop :=
  ~ (exists a c b, n = a ++ squote :: squote :: c :: b) /\ (d = MySQL -> ~ In backslash n).
(** Not all names of a list are empty. *)
Definition some_name (l : list bytes) : Prop := l = [] \/ exists n, In n l /\ n <> [].
Definition lists_named (d : dialect) (f : choice) : Prop :=
  match d with
  | SQLite => True
  | _ => some_name (counting (f_schemas f) (f_exschemas f)) /\ some_name (counting (f_tables f) (f_extables f))
  end.
