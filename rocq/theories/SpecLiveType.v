(** Types of columns: how the databases describe them and how they read them.  Written from their
    documentation; nothing here refers to the model of the Go code. *)
From Verif Require Import GoStr SpecSql SpecInsert SpecTokens SpecDdl.

(** ** Postgres *)
(** The name of the type (with the schema if it is not in the search path), its arguments, and whether it
    is an array. *)
Record pg_type := PgType { pg_path : list bytes; pg_args : list bytes; pg_array : bool }.
(** format_type: names and what is written before and after the arguments. *)
Definition pg_names : list (bytes * (bytes * bytes)) :=
  [(B"int4", (B"integer", [])); (B"int8", (B"bigint", [])); (B"int2", (B"smallint", [])); (B"bool", (B"boolean", []));
   (B"float4", (B"real", [])); (B"float8", (B"double precision", [])); (B"numeric", (B"numeric", []));
   (B"varchar", (B"character varying", [])); (B"bpchar", (B"character", []));
   (B"bit", (B"bit", [])); (B"varbit", (B"bit varying", [])); (B"interval", (B"interval", []));
   (B"timestamp", (B"timestamp", B" without time zone")); (B"timestamptz", (B"timestamp", B" with time zone"));
   (B"time", (B"time", B" without time zone")); (B"timetz", (B"time", B" with time zone"))].
Fixpoint assoc {A} (n : bytes) (l : list (bytes * A)) : option A :=
  match l with [] => None | (k, a) :: l' => if beqb n k then Some a else assoc n l' end.
(** The words that Postgres reads as one of its own types. *)
Definition pg_words : list (list bytes * bytes) :=
  [([B"CHARACTER"; B"VARYING"], B"varchar"); ([B"DOUBLE"; B"PRECISION"], B"float8"); ([B"BIT"; B"VARYING"], B"varbit");
   ([B"INT"], B"int4"); ([B"INTEGER"], B"int4"); ([B"INT4"], B"int4"); ([B"BIGINT"], B"int8"); ([B"INT8"], B"int8");
   ([B"SMALLINT"], B"int2"); ([B"INT2"], B"int2"); ([B"BOOLEAN"], B"bool"); ([B"BOOL"], B"bool"); ([B"REAL"], B"float4");
   ([B"FLOAT4"], B"float4"); ([B"FLOAT8"], B"float8"); ([B"FLOAT"], B"float8"); ([B"NUMERIC"], B"numeric"); ([B"DECIMAL"], B"numeric"); ([B"DEC"], B"numeric");
   ([B"VARCHAR"], B"varchar"); ([B"CHARACTER"], B"bpchar"); ([B"CHAR"], B"bpchar"); ([B"BIT"], B"bit"); ([B"VARBIT"], B"varbit");
   ([B"SERIAL"], B"serial"); ([B"SERIAL2"], B"serial2"); ([B"SERIAL4"], B"serial"); ([B"SERIAL8"], B"bigserial"); ([B"BIGSERIAL"], B"bigserial"); ([B"SMALLSERIAL"], B"serial2")].
Fixpoint find_words (l : list (list bytes * bytes)) (ts : toks) : option (bytes * toks) :=
  match l with
  | [] => None
  | (ws, n) :: l' => match kws ws ts with Some r => Some (n, r) | None => find_words l' ts end
  end.
(** Names that are not plain, and keywords, are quoted. *)
Definition plain_start (c : ascii) : bool := is_lower c || ceqb c "_".
Definition plain_pg (n : bytes) : bool :=
  match n with c :: n' => plain_start c && forallb (fun c => plain_start c || is_digit c) n' | [] => false end.
Definition unquoted (n : bytes) : bool :=
  plain_pg n && negb (bmem n (reserved Postgres)) && match find_words pg_words [Word n] with None => true | Some _ => false end.
Definition quote_pg (n : bytes) : bytes := if unquoted n then n else B"""" ++ replace_byte """"%char (B"""""") n ++ B"""".
Definition args_text (l : list bytes) : bytes := match l with [] => [] | _ => B"(" ++ join (B",") l ++ B")" end.
Definition format_type (t : pg_type) : bytes :=
  let '(before, after) :=
    match pg_path t with
    | [n] =>
        match assoc n pg_names with
        | Some p => if beqb n (B"bpchar") && match pg_args t with [] => true | _ => false end then (n, []) else p
        | None => (quote_pg n, [])
        end
    | p => (join (B".") (map quote_pg p), [])
    end in
  before ++ args_text (pg_args t) ++ after ++ (if pg_array t then B"[]" else []).

(** ** Reading *)
Definition path_part (ts : toks) : option (bytes * toks) :=
  match ts with
  | Word w :: r => Some (to_lower w, r)
  | Quoted v :: r => Some (v, r)
  | _ => None
  end.
Definition argument_token (ts : toks) : option (bytes * toks) :=
  match ts with Word w :: r => Some (to_lower w, r) | Num w :: r => Some (to_lower w, r) | _ => None end.
Definition read_args (ts : toks) : list bytes * toks :=
  match parens (tlist argument_token (sym ",")) ts with Some (l, r) => (l, r) | None => ([], ts) end.
(** TIME and TIMESTAMP may be followed by words about the time zone. *)
Definition read_zone (n : bytes) (ts : toks) : bytes * toks :=
  if beqb n (B"timestamp") || beqb n (B"time") then
    match kws [B"WITH"; B"TIME"; B"ZONE"] ts with
    | Some r => (n ++ B"tz", r)
    | None => match kws [B"WITHOUT"; B"TIME"; B"ZONE"] ts with Some r => (n, r) | None => (n, ts) end
    end
  else (n, ts).
Definition read_path (ts : toks) : option (list bytes * toks) :=
  match find_words pg_words ts with Some (n, r) => Some ([n], r) | None => tlist path_part (sym ".") ts end.
(** CHAR is CHAR(1). *)
Definition one_char (ts : toks) (args : list bytes) : list bytes :=
  match ts, args with t :: _, [] => if is_word [B"CHAR"; B"CHARACTER"] t then [B"1"] else [] | _, _ => args end.
Definition read_pg_type (ts : toks) : option pg_type :=
  let? (path, r) := read_path ts in
  let '(args, r) := read_args r in
  let args := match path with [n] => if beqb n (B"bpchar") then one_char ts args else args | _ => args end in
  let '(path, r) := match path with [n] => let '(n, r) := read_zone n r in ([n], r) | _ => (path, r) end in
  match r with
  | [] => Some (PgType path args false)
  | [Sym a; Sym b] => if ceqb a "[" && ceqb b "]" then Some (PgType path args true) else None
  | _ => None
  end.
(** What a column has: a type, an enum or a domain. *)
Inductive pg_column := OfType (t : pg_type) | OfEnum (path : list bytes) | OfDomain (path : list bytes) (t : pg_type).
Definition column_type (c : pg_column) : pg_type :=
  match c with OfType t => t | OfEnum p => PgType p [] false | OfDomain p _ => PgType p [] false end.
(** Names of types: not empty, at most one schema; enums and domains are no types of Postgres. *)
Definition path_ok (p : list bytes) : Prop :=
  match p with [n] => n <> [] | [s; n] => s <> [] /\ n <> [] | _ => False end.
Definition user_path (p : list bytes) : Prop := path_ok p /\ match p with [n] => assoc n pg_names = None | _ => True end.
Definition pg_ok (c : pg_column) : Prop :=
  match c with OfType t => path_ok (pg_path t) | OfEnum p => user_path p | OfDomain p t => user_path p /\ path_ok (pg_path t) end.
(** Names and arguments without quotes, arrays without arguments; no type is called charactervarying. *)
Definition squeezed : list bytes := map B
  ["charactervarying"; "timestampwithouttimezone"; "timestampwithtimezone"; "timewithouttimezone"; "timewithtimezone"; "bitvarying"]%string.
Definition clear_path (p : list bytes) : Prop :=
  match p with
  | [n] => assoc n pg_names <> None \/ unquoted n = true /\ ~ In n squeezed
  | _ => forallb unquoted p = true
  end.
Definition plain_arg (a : bytes) : bool :=
  match a with _ :: _ => forallb (fun c => plain_start c || is_digit c) a | [] => false end.
Definition clear_type (t : pg_type) : Prop :=
  clear_path (pg_path t) /\ forallb plain_arg (pg_args t) = true /\ List.length (pg_args t) <= 2 /\ (pg_array t = true -> pg_args t = []).
Definition pg_clear (c : pg_column) : Prop :=
  match c with
  | OfType t => clear_type t
  | OfEnum p => clear_path p
  | OfDomain p t => (exists n, p = [n] /\ clear_path p) /\ clear_type t
  end.

(** ** SQL Server *)
(** All arguments are given: lengths (a number or max), precision and scale. *)
Record ms_type := MsType { ms_name : bytes; ms_args : list bytes }.
Definition ms_sized : list bytes := map B ["char"; "varchar"; "nchar"; "nvarchar"; "binary"; "varbinary"]%string.
Definition ms_exact : list bytes := map B ["decimal"; "numeric"]%string.
Definition ms_scaled : list bytes := map B ["time"; "datetime2"; "datetimeoffset"]%string.
Definition ms_other : list bytes := map B
  ["bit"; "tinyint"; "smallint"; "int"; "bigint"; "real"; "float"; "money"; "smallmoney"; "date"; "datetime"; "smalldatetime";
   "text"; "ntext"; "image"; "xml"; "uniqueidentifier"; "sql_variant"; "timestamp"]%string.
(** Types of the system that are implemented as CLR types. *)
Definition ms_clr : list bytes := map B ["hierarchyid"; "geometry"; "geography"]%string.
Definition number (s : bytes) : Prop := s <> [] /\ forallb is_digit s = true.
Definition ms_ok (t : ms_type) : Prop :=
  In (ms_name t) ms_sized /\ (exists n, ms_args t = [n] /\ (number n \/ n = B"max"))
  \/ In (ms_name t) ms_exact /\ (exists p s, ms_args t = [p; s] /\ number p /\ number s)
  \/ In (ms_name t) ms_scaled /\ (exists s, ms_args t = [s] /\ number s)
  \/ In (ms_name t) (ms_other ++ ms_clr) /\ ms_args t = [].
Definition default_args (n : bytes) (args : list bytes) : list bytes :=
  match args with
  | [] => if bmem n ms_sized then [B"1"] else if bmem n ms_exact then [B"18"; B"0"] else if bmem n ms_scaled then [B"7"] else []
  | [p] => if bmem n ms_exact then [p; B"0"] else args
  | _ => args
  end.
Definition read_ms_type (ts : toks) : option ms_type :=
  match ts with
  | Word w :: r =>
      match read_args r with (args, []) => Some (MsType (to_lower w) (default_args (to_lower w) args)) | _ => None end
  | _ => None
  end.

(** ** What the scripts return *)
(** The cells of a row that have to do with the type. *)
Record type_cells := TypeCells {
  ce_type : bytes; ce_enum : bool; ce_domain : bytes; ce_length : bytes; ce_precision : bytes; ce_scale : bytes
}.
(** postgres_columns.sql: a domain is described by its name without the schema and by the type it is based on. *)
Definition pg_cells (c : pg_column) (r : type_cells) : Prop :=
  match c with
  | OfType t => ce_type r = format_type t /\ ce_enum r = false /\ ce_domain r = []
  | OfEnum p => ce_type r = format_type (PgType p [] false) /\ ce_enum r = true /\ ce_domain r = []
  | OfDomain p t => ce_type r = format_type t /\ ce_enum r = false /\ ce_domain r = last p []
  end.
(** sqlserver_columns.sql: TYPE_NAME(system_type_id) is NULL for CLR types, and the script takes the name of the
    table for NULL; the other types have lengths, -1 for max, or precisions and scales. *)
Definition ms_cells (table : bytes) (t : ms_type) (r : type_cells) : Prop :=
  ce_enum r = false /\ ce_domain r = []
  /\ ce_type r = (if bmem (ms_name t) ms_clr then table else ms_name t)
  /\ (In (ms_name t) ms_sized -> forall n, ms_args t = [n] -> ce_length r = if beqb n (B"max") then B"-1" else n)
  /\ (In (ms_name t) ms_exact -> forall p s, ms_args t = [p; s] -> ce_precision r = p /\ ce_scale r = s).
(** SQLite and MySQL: the type as text. *)
Definition text_cells (s : bytes) (r : type_cells) : Prop := ce_type r = s /\ ce_enum r = false /\ ce_domain r = [].
