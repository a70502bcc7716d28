(** Model of the CSV files that dump writes and load reads: DumpCmd.dumpCSV
    (dump_cmd.go:842-1001) and LoadCmd.loadCSV (load_cmd.go:346-540).  The functions of
    encoding/csv, encoding/hex and encoding/json are modelled from their documentation. *)
From Verif Require Import GoStr ModelSq ModelDdl.

(** ** encoding/csv *)
Definition comma : ascii := ","%char.
(** Writer.fieldNeedsQuotes.  [sp] decides whether the first rune of a field that begins
    with a byte above 127 is white space. *)
Definition needs_quotes (sp : bytes -> bool) (f : bytes) : bool :=
  match f with
  | [] => false
  | c :: _ =>
      beqb f (B"\.") || existsb (fun x => ceqb x LF || ceqb x CR || ceqb x dquote || ceqb x comma) f
      || is_space c || sp f
  end.
(** Writer.Write with Comma ',' and UseCRLF false. *)
Definition csv_field (sp : bytes -> bool) (f : bytes) : bytes :=
  if needs_quotes sp f then [dquote] ++ replace_byte dquote [dquote; dquote] f ++ [dquote] else f.
Definition csv_line (sp : bytes -> bool) (r : list bytes) : bytes := join [comma] (map (csv_field sp) r) ++ [LF].
Definition csv_write (sp : bytes -> bool) (rs : list (list bytes)) : bytes := flat_map (csv_line sp) rs.

(** Reader.readLine on the whole text: every CR LF becomes LF, and a CR at the very end is
    dropped. *)
Definition csv_lines (s : bytes) : bytes :=
  let s' := replace2 CR LF [LF] s in
  match rev s' with c :: r => if ceqb c CR then rev r else s' | [] => s' end.
(** Reader.readRecord with LazyQuotes, Comma ',', no comments and FieldsPerRecord -1, until
    the end of the file.  [cur] (reversed) is the field being read, [rec] (reversed) are the
    fields before it. *)
Inductive csv_mode := RecordStart | FieldStart | Plain | Quoted.
Fixpoint csv_read (s : bytes) (m : csv_mode) (cur : bytes) (rec : list bytes) : list (list bytes) :=
  match s with
  | [] => match m with RecordStart => [] | _ => [rev (rev cur :: rec)] end
  | c :: s' =>
      match m with
      | Quoted =>
          if ceqb c dquote then
            match s' with
            | [] => [rev (rev cur :: rec)]
            | d :: s'' =>
                if ceqb d dquote then csv_read s'' Quoted (dquote :: cur) rec
                else if ceqb d comma then csv_read s'' FieldStart [] (rev cur :: rec)
                else if ceqb d LF then rev (rev cur :: rec) :: csv_read s'' RecordStart [] []
                else csv_read s' Quoted (dquote :: cur) rec
            end
          else csv_read s' Quoted (c :: cur) rec
      | Plain =>
          if ceqb c comma then csv_read s' FieldStart [] (rev cur :: rec)
          else if ceqb c LF then rev (rev cur :: rec) :: csv_read s' RecordStart [] []
          else csv_read s' Plain (c :: cur) rec
      | _ =>
          if ceqb c LF then
            match m with
            | RecordStart => csv_read s' RecordStart [] []        (* empty lines are skipped *)
            | _ => rev ([] :: rec) :: csv_read s' RecordStart [] []
            end
          else if ceqb c dquote then csv_read s' Quoted [] rec
          else if ceqb c comma then csv_read s' FieldStart [] ([] :: rec)
          else csv_read s' Plain [c] rec
      end
  end.
Definition csv_parse (s : bytes) : list (list bytes) := csv_read (csv_lines s) RecordStart [] [].

(** ** encoding/hex *)
Definition unhexdigit (c : ascii) : option nat :=
  let n := cn c in
  if (48 <=? n) && (n <=? 57) then Some (n - 48)
  else if (97 <=? n) && (n <=? 102) then Some (n - 87)
  else if (65 <=? n) && (n <=? 70) then Some (n - 55)
  else None.
(** hex.DecodeString *)
Fixpoint unhex (s : bytes) : option bytes :=
  match s with
  | [] => Some []
  | [_] => None
  | a :: b :: s' =>
      match unhexdigit a, unhexdigit b, unhex s' with
      | Some x, Some y, Some r => Some (ascii_of_nat (16 * x + y) :: r)
      | _, _, _ => None
      end
  end.

(** ** Values *)
(** Elements of an array, and values of columns as the database holds them.  A float is given
    by the text of FormatFloat(f, 'f', -1, 64), a time by its seconds since 1970 and its
    nanoseconds. *)
Inductive elem := EInt (z : Z) | EBool (b : bool) | EFloat (b : bytes) | EText (b : bytes).
Inductive value :=
| DNull | DBool (b : bool) | DInt (z : Z) | DFloat (b : bytes) | DText (b : bytes) | DBlob (b : bytes)
| DTime (secs : Z) (nanos : N) | DArray (l : list elem).

(** json.Marshal of a string.  Bytes above 127 are copied (valid UTF-8 without U+2028 and
    U+2029). *)
Definition json_char (c : ascii) : bytes :=
  let n := cn c in
  if ceqb c dquote then B"\" ++ [dquote]
  else if ceqb c "\"%char then B"\\"
  else if ceqb c LF then B"\n"
  else if ceqb c CR then B"\r"
  else if ceqb c TAB then B"\t"
  else if (n <? 32) || ceqb c "<"%char || ceqb c ">"%char || ceqb c "&"%char then B"\u00" ++ hex_encode [c]
  else [c].
Definition json_string (s : bytes) : bytes := [dquote] ++ flat_map json_char s ++ [dquote].
Definition json_elem (e : elem) : bytes :=
  match e with
  | EInt z => Z_dec z
  | EBool b => if b then B"true" else B"false"
  | EFloat b => b
  | EText b => json_string b
  end.
(** json.Marshal of a slice that is not nil. *)
Definition json_array (l : list elem) : bytes := B"[" ++ join (B",") (map json_elem l) ++ B"]".

(** ** dump *)
(** The fields of DumpCmd, dump_cmd.go:59-98, after the defaults of lines 192-197. *)
Record dump_config := DumpConfig { dp_dialect : dialect; dp_null : bytes; dp_prefix : bytes; dp_json : bool; dp_uuid : bool }.
Definition or_default (s d : bytes) : bytes := match s with [] => d | _ => s end.
Definition dump_defaults (d : dialect) (null prefix : bytes) (json uuid : bool) : dump_config :=
  DumpConfig d (or_default null (B"\N")) (or_default prefix (B"0x")) json uuid.

Inductive kind := KBytes | KBool | KFloat | KInt | KString | KTime | KArray.
(** dump_cmd.go:851-858. *)
Definition dump_type (d : dialect) (t : bytes) : bytes :=
  match d with
  | MySQL => if has_suffix t (B" UNSIGNED") then trim_suffix t (B" UNSIGNED") else trim_suffix t (B" SIGNED")
  | _ => t
  end.
(** The scan destination for a normalized type, dump_cmd.go:860-901. *)
Definition scan_kind (c : dump_config) (t : bytes) : kind :=
  match dp_dialect c with
  | SQLite => if one_of t ["DATETIME"; "TIMESTAMP"]%string then KTime else KString
  | d =>
      if dialect_eqb d Postgres && dp_json c
         && one_of t ["BOOLEAN[]"; "SMALLINT[]"; "INT[]"; "INTEGER[]"; "BIGINT[]"; "NUMERIC[]"; "REAL[]"; "DOUBLE PRECISION[]";
                      "VARCHAR[]"; "CHAR[]"; "TEXT[]"]%string then KArray
      else if one_of t ["BYTEA"; "BINARY"; "VARBINARY"; "TINYBLOB"; "BLOB"; "MEDIUMBLOB"; "LONGBLOB"; "VARBIT"]%string then KBytes
      else if one_of t ["BOOLEAN"; "BIT"]%string then KBool
      else if one_of t ["NUMERIC"; "FLOAT"; "REAL"; "DOUBLE PRECISION"]%string then KFloat
      else if one_of t ["TINYINT"; "SMALLINT"; "MEDIUMINT"; "INT"; "INTEGER"; "BIGINT"]%string then KInt
      else if one_of t ["DATE"; "TIME"; "TIMETZ"; "DATETIME"; "DATETIME2"; "SMALLDATETIME"; "DATETIMEOFFSET"; "TIMESTAMP"; "TIMESTAMPTZ"]%string then KTime
      else KString
  end.
(** The field for a string, dump_cmd.go:951-971. *)
Definition string_field (c : dump_config) (t s : bytes) : bytes :=
  if one_of t ["BINARY"; "VARBINARY"; "TINYBLOB"; "BLOB"; "MEDIUMBLOB"; "LONGBLOB"]%string then dp_prefix c ++ hex_encode s
  else if one_of t ["UUID"]%string then
    if dialect_eqb (dp_dialect c) SQLite && (List.length s =? 16) then dp_prefix c ++ hex_encode s
    else if dialect_eqb (dp_dialect c) Postgres && dp_uuid c then dp_prefix c ++ replace_byte "-"%char [] s
    else s
  else s.
(** One value, dump_cmd.go:918-989.  [fmt] is Format("2006-01-02 15:04:05") in UTC, [out] the
    text that Postgres gives for an array.  A value that does not fit the scan destination is
    an error of Scan; what a driver makes of a time scanned into a string is not modelled. *)
Definition dump_field (fmt : Z -> bytes) (out : list elem -> bytes) (c : dump_config) (t : bytes) (v : value) : result bytes :=
  match scan_kind c t, v with
  | KArray, DNull => Ok (B"null")
  | KArray, DArray l => Ok (json_array l)
  | KArray, _ => Err
  | _, DNull => Ok (dp_null c)
  | KBytes, DBlob b => Ok (match b with [] => dp_null c | _ => dp_prefix c ++ hex_encode b end)
  | KBool, DBool b => Ok (if b then B"1" else B"0")
  | KFloat, DFloat b => Ok b
  | KInt, DInt z => Ok (Z_dec z)
  | KString, DText s => Ok (string_field c t s)
  | KString, DBlob s => Ok (string_field c t s)
  | KString, DInt z => Ok (string_field c t (Z_dec z))
  | KString, DFloat b => Ok (string_field c t b)
  | KString, DArray l => Ok (string_field c t (out l))
  | KTime, DTime s _ => Ok (fmt s)
  | _, _ => Err
  end.

(** ** load *)
(** The fields of LoadCmd, load_cmd.go:49-80, after the defaults of lines 158-163. *)
Record load_config := LoadConfig {
  ld_dialect : dialect; ld_null : bytes; ld_prefix : bytes; ld_no_null : bool; ld_no_prefix : bool; ld_stamps : bool }.
Definition load_defaults (d : dialect) (null prefix : bytes) (no_null no_prefix stamps : bool) : load_config :=
  LoadConfig d (or_default null (B"\N")) (or_default prefix (B"0x")) no_null no_prefix stamps.
(** What is passed to the database. *)
Inductive rowvalue := RNil | RBytes (b : bytes) | RString (b : bytes) | RUnix (z : Z).
(** load_cmd.go:437-450. *)
Definition uuid_text (b : bytes) : bytes :=
  let part i n := hex_encode (firstn n (skipn i b)) in
  part 0 4 ++ B"-" ++ part 4 2 ++ B"-" ++ part 6 2 ++ B"-" ++ part 8 2 ++ B"-" ++ part 10 6.
Definition binary_type (t : bytes) : bool :=
  one_of t ["BYTEA"; "BINARY"; "VARBINARY"; "TINYBLOB"; "BLOB"; "MEDIUMBLOB"; "LONGBLOB"; "VARBIT"; "UUID"]%string.
(** One field, load_cmd.go:416-476.  [stamp] tries the formats of load_cmd.go:329-339. *)
Definition load_field (stamp : bytes -> option Z) (c : load_config) (t f : bytes) : result rowvalue :=
  if negb (ld_no_null c) && beqb f (ld_null c) then Ok RNil
  else if binary_type t && negb (ld_no_prefix c) && negb (beqb (ld_prefix c) []) && has_prefix f (ld_prefix c) then
    match unhex (trim_prefix f (ld_prefix c)) with
    | None => Err
    | Some b =>
        if dialect_eqb (ld_dialect c) Postgres && one_of t ["UUID"]%string then
          if List.length b =? 16 then Ok (RString (uuid_text b)) else Err
        else Ok (RBytes b)
    end
  else if dialect_eqb (ld_dialect c) Postgres && has_suffix t (B"[]") && (2 <? List.length f) && has_prefix f (B"[") && has_suffix f (B"]") then
    Ok (RString (B"{" ++ removelast (tl f) ++ B"}"))
  else if dialect_eqb (ld_dialect c) SQLite && ld_stamps c && one_of t ["TIMESTAMP"; "DATETIME"; "DATE"]%string then
    Ok (match stamp (trim_suffix f (B"Z")) with Some z => RUnix z | None => RString f end)
  else Ok (RString f).

(** The column types found by getColumnInfo, load_cmd.go:997-1084: for MySQL and SQL Server the
    queries only return the columns of tables with a primary key. *)
Definition loaded_type (d : dialect) (has_pkey : bool) (t : bytes) : bytes :=
  match d with MySQL | SQLServer => if has_pkey then t else [] | _ => t end.

(** ** Whole files *)
(** dump_cmd.go:903-1000: the header and the rows as far as they were delivered.  A query
    that breaks off ends the loop like the last row (rows.Err is not asked). *)
Fixpoint mapr {A C} (f : A -> result C) (l : list A) : result (list C) :=
  match l with
  | [] => Ok []
  | x :: l' => bindr (f x) (fun y => bindr (mapr f l') (fun r => Ok (y :: r)))
  end.
Definition dump_row (fmt : Z -> bytes) (out : list elem -> bytes) (c : dump_config) (types : list bytes) (row : list value) : result (list bytes) :=
  mapr (fun p => dump_field fmt out c (fst p) (snd p)) (combine types row).
Definition dump_table (fmt : Z -> bytes) (out : list elem -> bytes) (sp : bytes -> bool) (c : dump_config) (names types : list bytes) (rows : list (list value))
  (broke_off : bool) : result bytes :=
  bindr (mapr (dump_row fmt out c types) rows) (fun rs => Ok (csv_write sp (names :: rs))).
(** load_cmd.go:373-480: the header and the rows passed to the batch insert. *)
Definition load_row (stamp : bytes -> option Z) (c : load_config) (types rec : list bytes) : result (list rowvalue) :=
  if List.length rec =? List.length types then mapr (fun p => load_field stamp c (fst p) (snd p)) (combine types rec)
  else Err.
Definition load_table (stamp : bytes -> option Z) (c : load_config) (type_of : bytes -> bytes) (text : bytes)
  : result (list bytes * list (list rowvalue)) :=
  match csv_parse text with
  | [] => Err
  | names :: recs => bindr (mapr (load_row stamp c (map type_of names)) recs) (fun rows => Ok (names, rows))
  end.

(** ** File names *)
(** dump_cmd.go:597-600 (and 374-377, 478-481). *)
Definition csv_name (current schema table : bytes) : bytes :=
  (if beqb schema [] || beqb schema current then [] else schema ++ B".") ++ table ++ B".csv".
(** ^\d*_ *)
Fixpoint after_digits (s : bytes) : bytes :=
  match s with [] => [] | c :: s' => if is_digit c then after_digits s' else s end.
Definition starts_with_number (s : bytes) : bool := has_prefix (after_digits s) (B"_").
(** load_cmd.go:357-370; [current] is the schema that the database reports. *)
Definition load_name (current filename : bytes) : bytes * bytes :=
  let n0 := basename (trim_suffix filename (B".csv")) in
  let n := if starts_with_number n0 then match cut_byte "_"%char n0 with Some (_, r) => r | None => n0 end else n0 in
  let (s, t) := match cut_byte "."%char n with Some (a, b) => (a, b) | None => ([], n) end in
  (if beqb s [] then current else s, t).
