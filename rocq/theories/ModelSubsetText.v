(** Model of the texts of subsetter.go: the literals written for the keys a subset query selects,
    and the text of the query that dumps a table. *)
From Verif Require Import GoStr ModelSq ModelDdl ModelSubset.

(** ** Literals, subsetter.go:153-191 and 205-300 *)
(** What a column of the key is scanned into (169-190). *)
Inductive kind := KindBytes | KindBool | KindFloat | KindInt | KindString | KindTime.
Definition bytes_types : list bytes := map B ["BYTEA"; "BINARY"; "VARBINARY"; "TINYBLOB"; "BLOB"; "MEDIUMBLOB"; "LONGBLOB"; "VARBIT"]%string.
Definition bool_types : list bytes := map B ["BOOLEAN"; "BIT"]%string.
Definition float_types : list bytes := map B ["NUMERIC"; "FLOAT"; "REAL"; "DOUBLE PRECISION"]%string.
Definition int_types : list bytes := map B ["TINYINT"; "SMALLINT"; "MEDIUMINT"; "INT"; "INTEGER"; "BIGINT"]%string.
Definition time_types : list bytes :=
  map B ["DATE"; "TIME"; "TIMETZ"; "DATETIME"; "DATETIME2"; "SMALLDATETIME"; "DATETIMEOFFSET"; "TIMESTAMP"; "TIMESTAMPTZ"]%string.
Definition scan_kind (d : dialect) (ty : bytes) : kind :=
  if dialect_eqb d SQLite then KindString
  else if bmem ty bytes_types then KindBytes
  else if bmem ty bool_types then KindBool
  else if bmem ty float_types then KindFloat
  else if bmem ty int_types then KindInt
  else if bmem ty time_types then KindTime
  else KindString.
(** What rows.Scan stored; [None] is NULL.  A float is given by its text, FormatFloat(v, 'f', -1, 64);
    a time by the text of its second in UTC, Format("2006-01-02 15:04:05"), and its nanoseconds. *)
Inductive scanned :=
| SBytes (v : option bytes)
| SBool (v : option bool)
| SFloat (v : option bytes)
| SInt (v : option Z)
| SString (v : option bytes)
| STime (v : option (bytes * N)).
(** A value of a key column. *)
Inductive keyval :=
| KvNull
| KvInt (z : Z)
| KvNum (w : bytes)                        (* another number, by its text *)
| KvText (s : bytes)
| KvBytes (s : bytes)
| KvBool (b : bool)
| KvTime (second : bytes) (ns : N).        (* the second as YYYY-MM-DD hh:mm:ss, and nanoseconds *)
(** What database/sql stores for a value in a column of type [ty]; [None] for values that are not
    of this type.  The conversions by drivers (times as text in SQLite) are not modelled. *)
Definition scan_key (d : dialect) (ty : bytes) (k : keyval) : option scanned :=
  match scan_kind d ty, k with
  | KindBytes, KvNull => Some (SBytes None)
  | KindBool, KvNull => Some (SBool None)
  | KindFloat, KvNull => Some (SFloat None)
  | KindInt, KvNull => Some (SInt None)
  | KindString, KvNull => Some (SString None)
  | KindTime, KvNull => Some (STime None)
  | KindBytes, KvBytes s => Some (SBytes (Some s))
  | KindBool, KvBool b => Some (SBool (Some b))
  | KindFloat, KvNum w => Some (SFloat (Some w))
  | KindInt, KvInt z => Some (SInt (Some z))
  | KindString, KvText s => Some (SString (Some s))
  | KindTime, KvTime second ns => Some (STime (Some (second, ns)))
  | KindString, KvInt z => if dialect_eqb d SQLite then Some (SString (Some (Z_dec z))) else None
  | KindString, KvNum w => if dialect_eqb d SQLite then Some (SString (Some w)) else None
  | KindString, KvBytes s => if dialect_eqb d SQLite then Some (SString (Some s)) else None
  | _, _ => None
  end.
(** The three digits of .000 *)
Definition millis (ns : N) : bytes :=
  let ms := (ns / 1000000)%N in map digit [ms / 100; ms / 10 mod 10; ms mod 10]%N.
(** The types of the SQLite cases, 262-288. *)
Definition sqlite_blobs : list bytes := map B ["BINARY"; "VARBINARY"; "TINYBLOB"; "BLOB"; "MEDIUMBLOB"; "LONGBLOB"]%string.
Definition sqlite_raw : list bytes := bool_types ++ float_types ++ int_types.
Section Literal.
(** Whether strconv.ParseInt or ParseFloat accept a text. *)
Context (parses : bytes -> bool).
Definition quoted_literal (s : bytes) : bytes := B"'" ++ escape_quote "'" s ++ B"'".
Definition hex_literal (s : bytes) : bytes := B"x'" ++ hex_encode s ++ B"'".
(** 256-289 *)
Definition string_literal (d : dialect) (ty s : bytes) : bytes :=
  if dialect_eqb d SQLite then
    if bmem ty sqlite_blobs then hex_literal s
    else if bmem ty sqlite_raw then s
    else if beqb ty (B"UUID") && (List.length s =? 16) then hex_literal s
    else if bmem ty time_types && parses s then s
    else quoted_literal s
  else quoted_literal s.
Definition key_literal (d : dialect) (ty : bytes) (v : scanned) : bytes :=
  match v with
  | SBytes None | SBool None | SFloat None | SInt None | SString None | STime None => B"NULL"
  | SBytes (Some s) =>
      match d with
      | Postgres => B"'\x" ++ hex_encode s ++ B"'"
      | SQLServer => B"0x" ++ hex_encode s
      | _ => hex_literal s
      end
  | SBool (Some b) =>
      match d with
      | SQLServer => if b then B"1" else B"0"
      | _ => if b then B"TRUE" else B"FALSE"
      end
  | SFloat (Some t) => t
  | SInt (Some z) => Z_dec z
  | SString (Some s) => string_literal d ty s
  | STime (Some (second, ns)) =>                          (* 291-300 *)
      if negb (ns mod 1000000 =? 0)%N then B"'" ++ second ++ B"." ++ millis ns ++ B"'"
      else B"'" ++ second ++ B"'"
  end.
End Literal.

(** ** The query, subsetter.go:443-587 *)
Section Text.
Context (d : dialect).
Let q := quote_identifier d.
Definition columns_text (cols : list bytes) : bytes := join (B", ") (map q cols).
Definition column_text (i : tid) (c : bytes) : bytes := full_name d i ++ B"." ++ q c.
(** 520-524 *)
Definition record_text (r : list bytes) : bytes :=
  (if dialect_eqb d MySQL then B"ROW" else []) ++ B"(" ++ join (B", ") r ++ B")".
Definition break : bytes := LF :: B"       ".
(** 508-529: [first] says whether no record is written yet, [n] is buf.Len()-n *)
Fixpoint records_text (first : bool) (n : nat) (rs : list (list bytes)) : bytes :=
  match rs with
  | [] => []
  | r :: rs' =>
      let w := (if first then [] else B",") ++ record_text r in
      if 80 <? n then break ++ w ++ records_text false (List.length break + List.length w) rs'
      else w ++ records_text false (n + List.length w) rs'
  end.
Definition values_text (first : bool) (v : bytes * list bytes * list (list bytes)) : bytes :=
  let '(name, cols, recs) := v in
  (if first then B"WITH " else B",") ++ name ++ B" "
  ++ (if dialect_eqb d SQLServer then B" AS (" ++ LF :: B"    SELECT * FROM (VALUES "
      else B"(" ++ columns_text cols ++ B") AS (" ++ LF :: B"    VALUES ")
  ++ records_text true 0 recs
  ++ (if dialect_eqb d SQLServer then B") AS tmp (" ++ columns_text cols ++ B")" else [])
  ++ LF :: B")" ++ [LF].
(** join.toSQL, 651-696 *)
Definition cond_text (c : colref * colref) : bytes :=
  column_text (fst (fst c)) (snd (fst c)) ++ B" = " ++ column_text (fst (snd c)) (snd (snd c)).
Definition join_text (j : tid * list (colref * colref)) : bytes :=
  LF :: B"    JOIN " ++ full_name d (fst j) ++ B" ON " ++ join (B" AND ") (map cond_text (snd j)).
Definition sql_join_text (s : sql_join) : bytes := full_name d (sj_first s) ++ flat_map join_text (sj_rest s).
(** 536-546 *)
Definition key_columns_text (i : tid) (key : list bytes) : bytes := join (B", ") (map (column_text i) key).
Definition select_text (first : bool) (i : tid) (key : list bytes) (s : sql_join) : bytes :=
  LF :: B"    " ++ (if first then [] else B"UNION" ++ LF :: B"    ")
  ++ B"SELECT DISTINCT " ++ key_columns_text i key ++ LF :: B"    FROM " ++ sql_join_text s.
Definition pkey_cond_text (i : tid) (c : bytes) : bytes := B"pkey_." ++ q c ++ B" = " ++ column_text i c.
(** The first of a list is written differently. *)
Definition firsts {A} (f : bool -> A -> bytes) (l : list A) : bytes :=
  match l with
  | [] => []
  | a :: l' => f true a ++ flat_map (f false) l'
  end.
Definition query_text (x : sql_query bytes) : bytes :=
  let i := sq_table x in
  firsts values_text (sq_values x)
  ++ (match sq_values x with [] => B"WITH " | _ => B"," end)
  ++ B"pkey_ (" ++ columns_text (sq_key x) ++ B") AS ("
  ++ firsts (fun first => select_text first i (sq_key x)) (sq_selects x)
  ++ LF :: B")" ++ LF :: B"SELECT "
  ++ join (LF :: B"    ,") (map (column_text i) (sq_columns x))
  ++ LF :: B"FROM " ++ full_name d i ++ LF :: B"JOIN pkey_ ON "
  ++ join (B" AND ") (map (pkey_cond_text i) (sq_key x))
  ++ (match sq_key x with [] => [] | key => LF :: B"ORDER BY " ++ key_columns_text i key end)
  ++ LF :: B";".
End Text.
(** Subsetter.Query as a text; [Err] stands for the empty one. *)
Definition subset_query (d : dialect) (cat : catalog) (ss : subsetter bytes) (i : tid) : result bytes :=
  bindr (table_query cat ss i) (fun x => Ok (query_text d x)).
