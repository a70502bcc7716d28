(** Model of ddl/sq.go: identifier quoting, literals and parameter
    substitution. *)
From Verif Require Import GoStr Keywords.

(** EscapeQuote, ddl/sq.go:82-102.  The Go loop copies the text before the next
    quote, writes two quotes and then skips one byte, or two bytes when the
    remaining text starts with two quotes and has more than two bytes. *)
Fixpoint escape_quote (q : ascii) (s : bytes) : bytes :=
  match s with
  | [] => []
  | x :: s' =>
      if ceqb x q then
        match s' with
        | y :: ((_ :: _) as s'') =>
            if ceqb y q then q :: q :: escape_quote q s''
            else q :: q :: escape_quote q s'
        | _ => q :: q :: escape_quote q s'
        end
      else x :: escape_quote q s'
  end.

(** Characters accepted in an unquoted identifier: ddl/sq.go:39. *)
Definition ident_char (c : ascii) : bool := ceqb c underscore || is_digit c || is_lower c.

(** The special names of ddl/sq.go:31-32. *)
Definition special_names : list bytes :=
  map B ["EXCLUDED"; "INSERTED"; "DELETED"; "NEW"; "OLD"]%string.

(** needsQuoting as computed in ddl/sq.go:26-64.  The loop of lines 34-50 ranges
    over runes; a byte of a multi-byte rune is never an [ident_char], so scanning
    bytes gives the same answer. *)
Definition needs_quoting (d : dialect) (s : bytes) : bool :=
  match s with
  | [] => true
  | c :: _ =>
      if bmem s special_names then false
      else if is_digit c || negb (forallb ident_char s) then true
      else bmem (to_lower s) (keywords d)
  end.

(** Opening and closing quotes: ddl/sq.go:69-76. *)
Definition open_quote (d : dialect) : ascii :=
  match d with MySQL => backtick | SQLServer => "["%char | _ => dquote end.
Definition close_quote (d : dialect) : ascii :=
  match d with MySQL => backtick | SQLServer => "]"%char | _ => dquote end.

(** QuoteIdentifier, ddl/sq.go:25-77. *)
Definition quote_identifier (d : dialect) (s : bytes) : bytes :=
  if needs_quoting d s
  then open_quote d :: escape_quote (close_quote d) s ++ [close_quote d]
  else s.

(** ** Values as SQL text *)

(** Argument values of Sprint (ddl/sq.go:496).  All signed and unsigned integer
    kinds print alike, so they are one constructor.  [VLib r] stands for times,
    floats and driver.Valuer results whose text is produced by Go library code
    outside this repository ([r] is that text or an error). *)
Inductive value :=
| VNil
| VBool (b : bool)
| VBytes (s : bytes)
| VString (s : bytes)
| VInt (z : Z)
| VLib (r : option bytes).

(** hex.EncodeToString *)
Definition hexdigit (n : nat) : ascii :=
  if n <? 10 then ascii_of_nat (48 + n) else ascii_of_nat (87 + n).
Definition hex_encode (s : bytes) : bytes :=
  flat_map (fun c => [hexdigit (cn c / 16); hexdigit (cn c mod 16)]) s.

Definition is_nl (c : ascii) : bool := ceqb c CR || ceqb c LF.

(** A quoted string literal: ddl/sq.go:530, 538, 570. *)
Definition string_lit (s : bytes) : bytes :=
  squote :: replace_byte squote [squote; squote] s ++ [squote].

(** Whether CONCAT(...) is used: ddl/sq.go:533, 539, 560, 572. *)
Definition uses_concat (d : dialect) : bool :=
  match d with MySQL | SQLServer => true | _ => false end.
Definition concat_sep (d : dialect) : bytes := if uses_concat d then B", " else B" || ".

(** CHR/CHAR calls: ddl/sq.go:545-558. *)
Definition chr_call (d : dialect) (c : ascii) : bytes :=
  let f := match d with Postgres => B"CHR(" | _ => B"CHAR(" end in
  f ++ (if ceqb c CR then B"13" else B"10") ++ B")".

(** The loop of ddl/sq.go:536-571; [seg] is the text since the last line break. *)
Fixpoint sprint_loop (d : dialect) (seg s : bytes) : bytes :=
  match s with
  | [] => match seg with [] => [] | _ => string_lit seg end
  | c :: s' =>
      if is_nl c then
        (match seg with [] => [] | _ => string_lit seg ++ concat_sep d end)
        ++ chr_call d c
        ++ (match s' with [] => [] | _ => concat_sep d end)
        ++ sprint_loop d [] s'
      else sprint_loop d (seg ++ [c]) s'
  end.

(** Sprint on a string: ddl/sq.go:526-575. *)
Definition sprint_string (d : dialect) (s : bytes) : bytes :=
  if existsb is_nl s then
    (if uses_concat d then B"CONCAT(" else [])
    ++ sprint_loop d [] s
    ++ (if uses_concat d then B")" else [])
  else string_lit s.

(** Sprint: ddl/sq.go:496-677. *)
Definition sprint (d : dialect) (v : value) : result bytes :=
  match v with
  | VNil => Ok (B"NULL")
  | VBool b =>
      Ok (match d, b with
          | SQLServer, true => B"1"
          | SQLServer, false => B"0"
          | _, true => B"TRUE"
          | _, false => B"FALSE"
          end)
  | VBytes s =>
      Ok (match d with
          | Postgres => B"'\x" ++ hex_encode s ++ B"'"
          | SQLServer => B"0x" ++ hex_encode s
          | _ => B"x'" ++ hex_encode s ++ B"'"
          end)
  | VString s => Ok (sprint_string d s)
  | VInt z => Ok (Z_dec z)
  | VLib (Some t) => Ok t
  | VLib None => Err
  end.

(** ** Parameter substitution *)

(** An argument: a value, possibly wrapped in sql.NamedArg. *)
Record arg := { arg_name : option bytes; arg_val : value }.

(** namedIndices, ddl/sq.go:372-378: the last argument with a name wins. *)
Fixpoint named_index (args : list arg) (i : nat) (name : bytes) : option nat :=
  match args with
  | [] => None
  | a :: args' =>
      match named_index args' (S i) name with
      | Some j => Some j
      | None =>
          match arg_name a with
          | Some n => if beqb n name then Some i else None
          | None => None
          end
      end
  end.

(** Sprint on an argument: line 605-606 unwraps sql.NamedArg. *)
Definition sprint_arg (d : dialect) (a : arg) : result bytes := sprint d (arg_val a).

(** strconv.Atoi on parameter names: they contain only letters, digits and
    underscores, so there is no sign; the value is unbounded here, and an
    out-of-range int64 is an error in Go as well as an index out of bounds. *)
Definition lookup_param (d : dialect) (args : list arg) (param : bytes) (running : nat)
  : result bytes :=
  match param with
  | [] => Panic (* paramName[0]; never called with an empty name *)
  | c0 :: rest =>
      let maybe_num :=
        match rest with
        | c1 :: rest' =>
            if ceqb c0 "@"%char && dialect_eqb d SQLServer
               && (ceqb c1 "p"%char || ceqb c1 "P"%char)
            then rest' else rest
        | [] => rest
        end in
      match maybe_num with
      | [] =>
          if negb (ceqb c0 "?"%char) then Err
          else match nth_error args running with
               | Some a => sprint_arg d a
               | None => Panic (* args[runningArgsIndex], ddl/sq.go:694 *)
               end
      | _ =>
          match dec_N maybe_num with
          | Some n =>
              if (n =? 0)%N || (N.of_nat (List.length args) <? n)%N then Err
              else match nth_error args (N.to_nat (n - 1)) with
                   | Some a => sprint_arg d a
                   | None => Panic
                   end
          | None =>
              match d with
              | Postgres | MySQL => Err
              | _ =>
                  match named_index args 0 rest with
                  | None => Err
                  | Some i =>
                      match nth_error args i with
                      | Some a => sprint_arg d a
                      | None => Err
                      end
                  end
              end
          end
      end
  end.

(** A character that can start a string or a quoted identifier: ddl/sq.go:422. *)
Definition opens_quote (d : dialect) (c : ascii) : bool :=
  ceqb c squote || ceqb c dquote
  || (ceqb c backtick && dialect_eqb d MySQL)
  || (ceqb c "["%char && dialect_eqb d SQLServer).

(** The character closing what [q] opened: ddl/sq.go:393-418. *)
Definition closes (q : ascii) : ascii := if ceqb q "["%char then "]"%char else q.

(** Characters that continue a parameter name: ddl/sq.go:431 (ASCII part). *)
Definition param_char (c : ascii) : bool := ceqb c underscore || is_letter c || is_digit c.

(** Characters that start a (non-anonymous) parameter: ddl/sq.go:448-450. *)
Definition param_start (d : dialect) (c : ascii) : bool :=
  match d with
  | SQLite => ceqb c "$"%char || ceqb c ":"%char || ceqb c "@"%char
  | Postgres => ceqb c "$"%char
  | SQLServer => ceqb c "@"%char
  | _ => false
  end.

(** Scanner state: outside quotes, inside quotes opened by [q], or about to copy
    the second half of a doubled quote (mustWriteCharAt). *)
Inductive scan := Outside | Inside (q : ascii) | MustWrite (q : ascii).

(** The loop of ddl/sq.go:384-479 and the epilogue 481-491.  [param] is
    paramName, [running] is runningArgsIndex, [out] the buffer. *)
Fixpoint sprintf_loop (d : dialect) (args : list arg) (st : scan) (param : bytes)
  (running : nat) (out : bytes) (query : bytes) : result bytes :=
  match query with
  | [] =>
      match param with
      | [] => match st with Outside => Ok out | _ => Err end
      | _ =>
          match lookup_param d args param running with
          | Ok v => match st with Outside => Ok (out ++ v) | _ => Err end
          | Err => Err
          | Panic => Panic
          end
      end
  | c :: query' =>
      match st with
      | MustWrite q => sprintf_loop d args (Inside q) param running (out ++ [c]) query'
      | Inside q =>
          let out' := out ++ [c] in
          if ceqb c (closes q) then
            match query' with
            | n :: _ =>
                if ceqb n (closes q)
                then sprintf_loop d args (MustWrite q) param running out' query'
                else sprintf_loop d args Outside param running out' query'
            | [] => sprintf_loop d args Outside param running out' query'
            end
          else sprintf_loop d args (Inside q) param running out' query'
      | Outside =>
          if opens_quote d c then
            sprintf_loop d args (Inside c) param running (out ++ [c]) query'
          else
            match param with
            | _ :: _ =>
                if param_char c then
                  sprintf_loop d args Outside (param ++ [c]) running out query'
                else
                  match lookup_param d args param running with
                  | Ok v =>
                      let running' :=
                        match param with
                        | [p] => if ceqb p "?"%char then S running else running
                        | _ => running
                        end in
                      sprintf_loop d args Outside [] running' (out ++ v ++ [c]) query'
                  | Err => Err
                  | Panic => Panic
                  end
            | [] =>
                if param_start d c then
                  sprintf_loop d args Outside [c] running out query'
                else if ceqb c "?"%char && negb (dialect_eqb d Postgres) then
                  if dialect_eqb d SQLite then
                    sprintf_loop d args Outside [c] running out query'
                  else
                    match nth_error args running with
                    | None => Err (* too few args, ddl/sq.go:465-467 *)
                    | Some a =>
                        match sprint_arg d a with
                        | Ok v => sprintf_loop d args Outside [] (S running) (out ++ v) query'
                        | Err => Err
                        | Panic => Panic
                        end
                    end
                else sprintf_loop d args Outside [] running (out ++ [c]) query'
            end
      end
  end.

(** Sprintf: ddl/sq.go:364-492. *)
Definition sprintf (d : dialect) (query : bytes) (args : list arg) : result bytes :=
  match args with
  | [] => Ok query
  | _ => sprintf_loop d args Outside [] 0 [] query
  end.
