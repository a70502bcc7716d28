(** What it means that a dumped table can be loaded again. *)
From Verif Require Import GoStr ModelSq ModelDdl ModelCsv.

(** ** Text files *)
(** Line ends in the style of Windows are read as plain line ends. *)
Inductive lf_of : bytes -> bytes -> Prop :=
| lf_nil : lf_of [] []
| lf_crlf s s' : lf_of s s' -> lf_of (CR :: LF :: s) (LF :: s')
| lf_char c s s' : lf_of s s' -> (c <> CR \/ forall r, s <> LF :: r) -> lf_of (c :: s) (c :: s').
(** No line end in the style of Windows. *)
Definition no_crlf (s : bytes) : Prop := forall a b, s <> a ++ CR :: LF :: b.

(** ** Arrays in Postgres *)
(** The input syntax of Postgres arrays of one dimension: elements separated by commas
    between braces; an element in double quotes stands for its characters, a backslash taking
    the next one literally; any other element stands for itself. *)
Fixpoint pg_quoted (s : bytes) : option (bytes * bytes) :=
  match s with
  | [] => None
  | c :: s' =>
      if ceqb c dquote then Some ([], s')
      else if ceqb c "\"%char then
        match s' with
        | d :: s'' => match pg_quoted s'' with Some (a, r) => Some (d :: a, r) | None => None end
        | [] => None
        end
      else match pg_quoted s' with Some (a, r) => Some (c :: a, r) | None => None end
  end.
Fixpoint pg_plain (s : bytes) : bytes * bytes :=
  match s with
  | c :: s' =>
      if ceqb c comma || ceqb c "}"%char then ([], s) else let (a, r) := pg_plain s' in (c :: a, r)
  | [] => ([], [])
  end.
Fixpoint pg_elems (fuel : nat) (s : bytes) : option (list bytes) :=
  match fuel with
  | O => None
  | S n =>
      let step (a r : bytes) :=
        match r with
        | [c] => if ceqb c "}"%char then Some [a] else None
        | c :: r' => if ceqb c comma then match pg_elems n r' with Some l => Some (a :: l) | None => None end else None
        | [] => None
        end in
      match s with
      | c :: s' =>
          if ceqb c dquote then match pg_quoted s' with Some (a, r) => step a r | None => None end
          else match pg_plain s with ([], _) => None | (a, r) => step a r end
      | [] => None
      end
  end.
Definition pg_array (s : bytes) : option (list bytes) :=
  match strip_prefix (B"{") s with
  | Some r => if beqb r (B"}") then Some [] else pg_elems (S (List.length r)) r
  | None => None
  end.
(** The text of an element. *)
Definition elem_text (e : elem) : bytes :=
  match e with EInt z => Z_dec z | EBool b => if b then B"true" else B"false" | EFloat b => b | EText b => b end.

(** ** Values *)
(** What a column of a type can hold, and how. *)
Inductive class := CBlob | CBool | CFloat | CInt | CTime | CList | CText.
Definition class_of (d : dialect) (t : bytes) : class :=
  match d with
  | SQLite =>
      if one_of t ["BINARY"; "VARBINARY"; "TINYBLOB"; "BLOB"; "MEDIUMBLOB"; "LONGBLOB"]%string then CBlob
      else if one_of t ["DATETIME"; "TIMESTAMP"]%string then CTime
      else if one_of t ["INT"; "INTEGER"; "BIGINT"; "SMALLINT"; "TINYINT"; "BOOLEAN"]%string then CInt
      else if one_of t ["REAL"; "NUMERIC"; "FLOAT"; "DOUBLE PRECISION"]%string then CFloat
      else CText
  | _ =>
      if one_of t ["BYTEA"; "BINARY"; "VARBINARY"; "TINYBLOB"; "BLOB"; "MEDIUMBLOB"; "LONGBLOB"; "VARBIT"]%string then CBlob
      else if one_of t ["BOOLEAN"; "BIT"]%string then CBool
      else if one_of t ["NUMERIC"; "FLOAT"; "REAL"; "DOUBLE PRECISION"]%string then CFloat
      else if one_of t ["TINYINT"; "SMALLINT"; "MEDIUMINT"; "INT"; "INTEGER"; "BIGINT"]%string then CInt
      else if one_of t ["DATE"; "TIME"; "TIMETZ"; "DATETIME"; "DATETIME2"; "SMALLDATETIME"; "DATETIMEOFFSET"; "TIMESTAMP"; "TIMESTAMPTZ"]%string then CTime
      else if dialect_eqb d Postgres && has_suffix t (B"[]") then CList
      else CText
  end.
(** The value that a column of the class holds after [r] was inserted. *)
Inductive holds (fmt : Z -> bytes) : class -> rowvalue -> value -> Prop :=
| holds_null k : holds fmt k RNil DNull
| holds_blob k b : holds fmt k (RBytes b) (DBlob b)
| holds_bool (b : bool) : holds fmt CBool (RString (if b then B"1" else B"0")) (DBool b)
| holds_float b : holds fmt CFloat (RString b) (DFloat b)
| holds_int z : holds fmt CInt (RString (Z_dec z)) (DInt z)
| holds_time s : holds fmt CTime (RString (fmt s)) (DTime s 0)
| holds_text b : holds fmt CText (RString b) (DText b)
| holds_list b l : pg_array b = Some (map elem_text l) -> holds fmt CList (RString b) (DArray l).

(** ** What can be dumped and loaded *)
(** The value can be in a column of the class. *)
Definition fits (k : class) (v : value) : Prop :=
  match v, k with
  | DNull, _ | DBlob _, CBlob | DBool _, CBool | DFloat _, CFloat | DInt _, CInt | DTime _ _, CTime | DText _, CText
  | DArray _, CList => True
  | _, _ => False
  end.
(** Text that JSON and Postgres escape alike. *)
Definition plain_char (c : ascii) : Prop := 32 <= cn c /\ c <> "<"%char /\ c <> ">"%char /\ c <> "&"%char.
Definition number_char (c : ascii) : Prop := is_digit c = true \/ In c (B"-+.e").
Definition plain_elem (e : elem) : Prop :=
  match e with
  | EText b => Forall plain_char b
  | EFloat b => b <> [] /\ Forall number_char b
  | _ => True
  end.
(** What the driver and the formatting must satisfy: Postgres writes arrays as it reads them. *)
Definition writes_arrays (out : list elem -> bytes) : Prop := forall l, pg_array (out l) = Some (map elem_text l).

(** A UUID as Postgres writes it. *)
Definition hex_part (n : nat) (s : bytes) : Prop := List.length s = n /\ Forall (fun c => In c (B"0123456789abcdef")) s.
Definition canonical_uuid (s : bytes) : Prop :=
  exists a1 a2 a3 a4 a5, hex_part 8 a1 /\ hex_part 4 a2 /\ hex_part 4 a3 /\ hex_part 4 a4 /\ hex_part 12 a5
    /\ s = a1 ++ B"-" ++ a2 ++ B"-" ++ a3 ++ B"-" ++ a4 ++ B"-" ++ a5.

(** The value survives (apart from being mistaken for the null string): no empty binary
    values (except in SQLite), no fractions of seconds, arrays in JSON neither NULL nor empty
    and with plain elements, no text in binary columns or in UUID columns that looks like
    binary data. *)
Definition survives (c : dump_config) (t : bytes) (v : value) : Prop :=
  let k := class_of (dp_dialect c) t in
  fits k v
  /\ match v with
     | DNull => k = CList -> dp_json c = false
     | DBlob b => dp_dialect c <> SQLite -> b <> []
     | DTime _ n => n = 0%N
     | DText s =>
         one_of t ["UUID"; "BYTEA"; "VARBIT"]%string = true ->
         (dp_dialect c = Postgres /\ dp_uuid c = true /\ canonical_uuid s)
         \/ (has_prefix s (dp_prefix c) = false /\ (dp_dialect c = Postgres -> dp_uuid c = false) /\ (dp_dialect c = SQLite -> List.length s <> 16))
     | DArray l => dp_json c = true -> l <> [] /\ Forall plain_elem l
     | _ => True
     end.
(** dump and load agree about the settings. *)
Definition agree (c : dump_config) (l : load_config) : Prop :=
  dp_dialect c = ld_dialect l /\ dp_null c = ld_null l /\ dp_prefix c = ld_prefix l /\ dp_prefix c <> []
  /\ ld_no_null l = false /\ ld_no_prefix l = false /\ ld_stamps l = false.

(** ** Whole tables *)
(** Two values are the same (elements of arrays are compared by their text). *)
Definition same_value (v w : value) : Prop :=
  match v, w with DArray a, DArray b => map elem_text a = map elem_text b | _, _ => v = w end.
(** Formatting of times, arrays and floats, and the settings, keep to one line. *)
Definition one_line (fmt : Z -> bytes) (out : list elem -> bytes) (c : dump_config) : Prop :=
  (forall z, fmt z <> [] /\ ~ In CR (fmt z)) /\ (forall l, no_crlf (out l)) /\ ~ In CR (dp_null c) /\ ~ In CR (dp_prefix c).
Definition keeps_lines (v : value) : Prop :=
  match v with DText s => no_crlf s | DFloat b => ~ In CR b | _ => True end.
Definition is_blank (v : value) : Prop := v = DText [] \/ v = DFloat [].
(** The row survives: every value does and is not mistaken for the null string, and a table
    of one column has no empty text. *)
Definition row_survives (fmt : Z -> bytes) (out : list elem -> bytes) (c : dump_config) (types : list bytes) (row : list value) : Prop :=
  Forall2 (fun t v => survives c t v /\ (v = DNull \/ dump_field fmt out c t v <> Ok (dp_null c)) /\ keeps_lines v) types row
  /\ (forall v, row = [v] -> ~ is_blank v).

(** ** File names *)
(** A directory with its slash, or none. *)
Definition in_dir (dir : bytes) : Prop := dir = [] \/ exists d, dir = d ++ ["/"%char].
(** Digits (possibly none) and an underscore at the beginning. *)
Definition numbered (s : bytes) : Prop := exists ds r, Forall (fun c => is_digit c = true) ds /\ s = ds ++ "_"%char :: r.
(** The table is in the schema where unqualified names are looked up. *)
Definition home (current schema : bytes) : Prop := schema = [] \/ schema = current.
(** The name survives: what stands first is not numbered, and it is clear which dot divides. *)
Definition name_survives (current schema table : bytes) : Prop :=
  ((home current schema -> ~ numbered table) /\ (~ home current schema -> ~ numbered schema))
  /\ (home current schema -> ~ In "."%char table) /\ (~ home current schema -> ~ In "."%char schema).
(** The documented meaning of a file name without directory and suffix (sqddl.md): a number and an
    underscore are discarded, the schema is what precedes the first dot. *)
Inductive documented : bytes -> option bytes -> bytes -> Prop :=
| doc_table t : ~ In "."%char t -> (forall ds r, ds <> [] -> Forall (fun c => is_digit c = true) ds -> t <> ds ++ "_"%char :: r) -> documented t None t
| doc_schema s t : ~ In "."%char s -> (forall ds r, ds <> [] -> Forall (fun c => is_digit c = true) ds -> s <> ds ++ "_"%char :: r) -> documented (s ++ "."%char :: t) (Some s) t
| doc_number_table ds t : ds <> [] -> Forall (fun c => is_digit c = true) ds -> ~ In "."%char t -> documented (ds ++ "_"%char :: t) None t
| doc_number_schema ds s t : ds <> [] -> Forall (fun c => is_digit c = true) ds -> ~ In "."%char s -> documented (ds ++ "_"%char :: s ++ "."%char :: t) (Some s) t.
