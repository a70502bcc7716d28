(** Model of the helper functions of ddl/ddl.go:566-1114. *)
From Verif Require Import GoStr.

(** ** Generated names *)
(** The nameType argument of GenerateName: the constants of ddl/ddl.go and any
    other string. *)
Inductive name_kind := PKey | FKey | UniqueKey | IndexKind | CheckKind | ExcludeKind | OtherKind.

(** Suffixes: ddl/ddl.go:591-605. *)
Definition kind_suffix (k : name_kind) : bytes :=
  match k with
  | PKey => B"_pkey"
  | FKey => B"_fkey"
  | UniqueKey => B"_key"
  | IndexKind => B"_idx"
  | CheckKind => B"_check"
  | ExcludeKind => B"_excl"
  | OtherKind => []
  end.

(** Writing a name with spaces replaced: ddl/ddl.go:576-581, 584-589.  The Go loop
    ranges over runes and writes them back, which copies valid UTF-8 unchanged;
    names are assumed to be valid UTF-8. *)
Definition write_name (buf name : bytes) : bytes :=
  fold_left (fun b c => b ++ [if ceqb c SPACE then underscore else c]) name buf.

(** GenerateName: ddl/ddl.go:569-615. *)
Definition generate_name (k : name_kind) (table : bytes) (columns : list bytes) : bytes :=
  let b := write_name [] table in
  let b := fold_left (fun b col => write_name (b ++ B"_") col) columns b in
  let suffix := kind_suffix k in
  let excess := List.length b + List.length suffix - 63 in
  if 0 <? excess then firstn (List.length b - excess) b ++ suffix
  else b ++ suffix.

(** ** Brackets *)
Definition last_byte (s : bytes) : option ascii := hd_error (rev s).

(** wrappedInBrackets: ddl/ddl.go:663-665. *)
Definition wrapped_in_brackets (s : bytes) : bool :=
  match hd_error s, last_byte s with
  | Some a, Some b => ceqb a "("%char && ceqb b ")"%char
  | _, _ => false
  end.

(** wrapBrackets: ddl/ddl.go:642-650. *)
Definition wrap_brackets (s : bytes) : bytes :=
  match s with
  | [] => []
  | _ => if wrapped_in_brackets s then s else B"(" ++ s ++ B")"
  end.

(** unwrapBrackets: ddl/ddl.go:652-661 (s[1:last]). *)
Definition unwrap_brackets (s : bytes) : bytes :=
  if wrapped_in_brackets s then removelast (tl s) else s.

(** ** splitArgs: ddl/ddl.go:669-754 *)
(** State of the inner loop: at top level, inside a string, at the second half of a
    doubled quote (skipCharAt), inside round or square brackets. *)
Inductive sa_state := SaTop | SaStr | SaSkip | SaParen (n : nat) | SaArray (n : nat).

(** Inner loop, lines 679-744: the text before and after the next delimiter.
    [SaParen n] and [SaArray n] stand for level [S n]. *)
Fixpoint next_comma (st : sa_state) (s : bytes) : option (bytes * bytes) :=
  match s with
  | [] => None
  | c :: s' =>
      let skip st' :=
        match next_comma st' s' with Some (a, b) => Some (c :: a, b) | None => None end in
      match st with
      | SaSkip => skip SaStr
      | SaArray n =>
          if ceqb c "]"%char then skip (match n with O => SaTop | S n' => SaArray n' end)
          else if ceqb c "["%char then skip (SaArray (S n))
          else skip (SaArray n)
      | SaParen n =>
          if ceqb c ")"%char then skip (match n with O => SaTop | S n' => SaParen n' end)
          else if ceqb c "("%char then skip (SaParen (S n))
          else skip (SaParen n)
      | SaStr =>
          if ceqb c squote then
            match s' with
            | x :: _ => if ceqb x squote then skip SaSkip else skip SaTop
            | [] => skip SaTop
            end
          else skip SaStr
      | SaTop =>
          if ceqb c "["%char then skip (SaArray 0)
          else if ceqb c "("%char then skip (SaParen 0)
          else if ceqb c squote then skip SaStr
          else if ceqb c ","%char then Some ([], s')
          else skip SaTop
      end
  end.

(** Outer loop, lines 676-752.  Every round shortens [s], so [S (length s)] rounds
    suffice. *)
Fixpoint split_args_loop (fuel : nat) (s : bytes) : list bytes :=
  match fuel with
  | O => []
  | S f =>
      match next_comma SaTop s with
      | Some (a, b) => a :: split_args_loop f b
      | None => [s]
      end
  end.

Definition split_args (s : bytes) : list bytes :=
  match s with [] => [] | _ => split_args_loop (S (List.length s)) s end.

(** ** Column types *)
(** strings.LastIndex split: the text before and after the last [c]. *)
Definition cut_last (c : ascii) (s : bytes) : option (bytes * bytes) :=
  match cut_byte c (rev s) with
  | Some (a, b) => Some (rev b, rev a)
  | None => None
  end.

Definition no_spaces (s : bytes) : bytes := replace_byte SPACE [] s.

Definition one_of (s : bytes) (l : list string) : bool := bmem s (map B l).

(** ddl/ddl.go:784-826 *)
Definition pg_type (t suffix : bytes) : bytes :=
  let k := no_spaces t in
  let with_tz := negb (beqb suffix []) && beqb (no_spaces suffix) (B"WITHTIMEZONE") in
  if one_of k ["INTEGER"; "SERIAL"; "SERIAL4"; "INT4"]%string then B"INT"
  else if one_of k ["BIGSERIAL"; "SERIAL8"; "INT8"]%string then B"BIGINT"
  else if one_of k ["SMALLSERIAL"; "SERIAL2"; "INT2"]%string then B"SMALLINT"
  else if one_of k ["DECIMAL"]%string then B"NUMERIC"
  else if one_of k ["FLOAT4"]%string then B"REAL"
  else if one_of k ["FLOAT8"]%string then B"DOUBLE PRECISION"
  else if one_of k ["CHARACTERVARYING"]%string then B"VARCHAR"
  else if one_of k ["CHARACTER"]%string then B"CHAR"
  else if one_of k ["TIMESTAMPWITHOUTTIMEZONE"]%string then B"TIMESTAMP"
  else if one_of k ["TIMESTAMPWITHTIMEZONE"]%string then B"TIMESTAMPTZ"
  else if one_of k ["TIMESTAMP"]%string then if with_tz then B"TIMESTAMPTZ" else t
  else if one_of k ["TIMEWITHOUTTIMEZONE"]%string then B"TIME"
  else if one_of k ["TIMEWITHTIMEZONE"]%string then B"TIMETZ"
  else if one_of k ["TIME"]%string then if with_tz then B"TIMETZ" else t
  else if one_of k ["BITVARYING"]%string then B"VARBIT"
  else if one_of k ["BOOL"]%string then B"BOOLEAN"
  else t.

(** ddl/ddl.go:828-853 *)
Definition my_type (t arg1 arg2 : bytes) : bytes * bytes * bytes :=
  let uns := has_suffix t (B" UNSIGNED") in
  let t := if uns then trim_suffix t (B" UNSIGNED") else trim_suffix t (B" SIGNED") in
  let k := no_spaces t in
  let '(t, arg1, arg2) :=
    if one_of k ["INTEGER"]%string then (B"INT", [], [])
    else if one_of k ["DEC"; "DECIMAL"]%string then (B"NUMERIC", arg1, arg2)
    else if one_of k ["BOOL"; "BOOLEAN"]%string then (B"TINYINT", B"1", [])
    else if one_of k ["TINYINT"]%string then (t, if beqb arg1 (B"1") then arg1 else [], [])
    else if one_of k ["SMALLINT"; "MEDIUMINT"; "INT"; "BIGINT"]%string then (t, [], [])
    else (t, arg1, arg2) in
  (if uns then t ++ B" UNSIGNED" else t, arg1, arg2).

(** ddl/ddl.go:855-868 *)
Definition ms_type (t : bytes) : bytes :=
  let k := no_spaces t in
  if one_of k ["BINARYVARYING"]%string then B"VARBINARY"
  else if one_of k ["INTEGER"]%string then B"INT"
  else if one_of k ["NATIONALCHARACTERVARYING"]%string then B"NVARCHAR"
  else if one_of k ["CHARACTERVARYING"]%string then B"VARCHAR"
  else if one_of k ["CHARACTER"]%string then B"CHAR"
  else if one_of k ["DEC"; "DECIMAL"]%string then B"NUMERIC"
  else t.

(** The type, its arguments and the suffix: ddl/ddl.go:759-775.  With [j > i = -1]
    the slice [columnType[:i]] panics. *)
Definition split_type (s : bytes) : result (bytes * bytes * bytes * bytes) :=
  let ct := to_upper (trim_space s) in
  let plain := Ok (ct, [], [], []) in
  match cut_byte "("%char ct with
  | None =>
      match cut_last ")"%char ct with Some _ => Panic | None => plain end
  | Some (base, after) =>
      match cut_last ")"%char after with
      | None => plain
      | Some (args, suffix) =>
          let args := trim_space args in
          let '(arg1, arg2) :=
            match cut_byte ","%char args with
            | Some (a, b) => (trim_space a, trim_space b)
            | None => (trim_space args, [])
            end in
          Ok (trim_space base, arg1, arg2, trim_space suffix)
      end
  end.

(** normalizeColumnType: ddl/ddl.go:758-874.  Upper-casing and trimming are those of
    ASCII. *)
Definition normalize_column_type (d : dialect) (s : bytes) : result (bytes * bytes * bytes) :=
  match split_type s with
  | Ok (t, arg1, arg2, suffix) =>
      Ok (match d with
          | Postgres =>
              if has_suffix t (B"[]")
              then (pg_type (trim_suffix t (B"[]")) suffix ++ B"[]", arg1, arg2)
              else (pg_type t suffix, arg1, arg2)
          | MySQL => my_type t arg1 arg2
          | SQLServer => (ms_type t, arg1, arg2)
          | _ => (t, arg1, arg2)
          end)
  | Err => Err
  | Panic => Panic
  end.

(** normalizeColumnDefault: ddl/ddl.go:878-914. *)
Definition normalize_column_default (d : dialect) (s : bytes) : bytes :=
  let cd := trim_space s in
  let up := to_upper cd in
  match cd with
  | [] => []
  | _ =>
      if one_of up ["1"; "TRUE"]%string then B"'1'"
      else if one_of up ["0"; "FALSE"]%string then B"'0'"
      else if one_of up ["CURRENT_DATE"; "CURRENT_TIME"; "CURRENT_TIMESTAMP"; "NULL"]%string then up
      else
        match d with
        | SQLite =>
            if one_of up ["DATETIME()"; "DATETIME('NOW')"]%string then B"CURRENT_TIMESTAMP" else cd
        | Postgres =>
            if one_of up ["NOW()"]%string then B"CURRENT_TIMESTAMP"
            else match cut (B"::") cd with Some (before, _) => before | None => cd end
        | MySQL => if one_of up ["NOW()"]%string then B"CURRENT_TIMESTAMP" else cd
        | SQLServer => if one_of up ["GETDATE()"]%string then B"CURRENT_TIMESTAMP" else cd
        | Other => cd
        end
  end.

(** ** Versions *)
(** VersionNums.LowerThan: ddl/ddl.go:1094-1104. *)
Fixpoint lower_than (v nums : list Z) : bool :=
  match v with
  | [] => false
  | x :: v' =>
      match nums with
      | [] => false
      | y :: nums' =>
          if (y <? x)%Z then false
          else if (x <? y)%Z then true
          else lower_than v' nums'
      end
  end.

(** GreaterOrEqualTo: ddl/ddl.go:1112-1114. *)
Definition greater_or_equal_to (v nums : list Z) : bool := negb (lower_than v nums).
