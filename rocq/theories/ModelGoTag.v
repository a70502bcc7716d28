(** Go string literals and struct tags: the functions of [strconv] and [reflect] that the
    code calls.  Bytes above 127 stand for printable characters in valid UTF-8. *)
From Verif Require Import GoStr.

Definition backslash : ascii := ascii_of_nat 92.
Definition hex_digit (n : nat) : ascii := ascii_of_nat (if n <? 10 then 48 + n else 87 + n).
Definition hex_value (c : ascii) : option nat :=
  let n := cn c in
  if is_digit c then Some (n - 48)
  else if (97 <=? n) && (n <=? 102) then Some (n - 87)
  else if (65 <=? n) && (n <=? 70) then Some (n - 55)
  else None.

(** The letters of the escapes for control characters: \a \b \t \n \v \f \r. *)
Definition escape_letter (n : nat) : option ascii :=
  match n with
  | 7 => Some "a"%char | 8 => Some "b"%char | 9 => Some "t"%char | 10 => Some "n"%char
  | 11 => Some "v"%char | 12 => Some "f"%char | 13 => Some "r"%char
  | _ => None
  end.
Definition escaped_byte (c : ascii) : option nat :=
  if ceqb c "a"%char then Some 7 else if ceqb c "b"%char then Some 8 else if ceqb c "t"%char then Some 9
  else if ceqb c "n"%char then Some 10 else if ceqb c "v"%char then Some 11 else if ceqb c "f"%char then Some 12
  else if ceqb c "r"%char then Some 13 else None.

(** strconv.Quote *)
Definition quote_char (c : ascii) : bytes :=
  let n := cn c in
  if ceqb c dquote || ceqb c backslash then [backslash; c]
  else if (n <? 32) || (n =? 127) then
    match escape_letter n with
    | Some l => [backslash; l]
    | None => [backslash; "x"%char; hex_digit (n / 16); hex_digit (n mod 16)]
    end
  else [c].
Definition go_quote (s : bytes) : bytes := [dquote] ++ flat_map quote_char s ++ [dquote].

(** strconv.Unquote of what stands between double quotes.  The escapes \u, \U and those
    with octal digits count as errors. *)
Fixpoint unescape (s : bytes) : option bytes :=
  match s with
  | [] => Some []
  | c :: s' =>
      if ceqb c dquote || ceqb c LF then None
      else if ceqb c backslash then
        match s' with
        | [] => None
        | e :: s'' =>
            if ceqb e "x"%char then
              match s'' with
              | h :: l :: s3 =>
                  match hex_value h, hex_value l, unescape s3 with
                  | Some h, Some l, Some r => Some (ascii_of_nat (h * 16 + l) :: r)
                  | _, _, _ => None
                  end
              | _ => None
              end
            else if ceqb e backslash || ceqb e dquote then option_map (cons e) (unescape s'')
            else match escaped_byte e with
                 | Some n => option_map (cons (ascii_of_nat n)) (unescape s'')
                 | None => None
                 end
        end
      else option_map (cons c) (unescape s')
  end.

(** strconv.Unquote of a string literal. *)
Definition go_unquote (s : bytes) : option bytes :=
  match s with
  | q :: rest =>
      match hd_error (rev rest) with
      | Some e =>
          let body := removelast rest in
          if negb (ceqb q e) then None
          else if ceqb q backtick then
            if existsb (ceqb backtick) body then None else Some (replace_byte CR [] body)
          else if ceqb q dquote then unescape body
          else None
      | None => None
      end
  | [] => None
  end.

(** The name of a key in reflect.StructTag.Lookup: the longest start without blanks, colons,
    quotes and control characters. *)
Definition tag_char (c : ascii) : bool :=
  (32 <? cn c) && negb (ceqb c ":"%char) && negb (ceqb c dquote) && negb (cn c =? 127).
Fixpoint tag_name (s : bytes) : bytes * bytes :=
  match s with
  | c :: s' => if tag_char c then let '(n, r) := tag_name s' in (c :: n, r) else ([], s)
  | [] => ([], [])
  end.
(** The text up to the closing quote, which follows the opening one. *)
Fixpoint tag_value (s : bytes) : option (bytes * bytes) :=
  match s with
  | [] => None
  | c :: s' =>
      if ceqb c dquote then Some ([], s')
      else if ceqb c backslash then
        match s' with
        | [] => None
        | e :: s'' => match tag_value s'' with Some (v, r) => Some (c :: e :: v, r) | None => None end
        end
      else match tag_value s' with Some (v, r) => Some (c :: v, r) | None => None end
  end.
(** strings.TrimLeft(s, " ") *)
Fixpoint skip_blanks (s : bytes) : bytes :=
  match s with
  | [] => []
  | x :: s' => if ceqb x SPACE then skip_blanks s' else s
  end.
(** reflect.StructTag.Get; every round shortens the tag. *)
Fixpoint tag_get_loop (fuel : nat) (key tag : bytes) : bytes :=
  match fuel with
  | O => []
  | S fuel' =>
      match tag_name (skip_blanks tag) with
      | ((_ :: _) as name, c :: q :: rest) =>
          if ceqb c ":"%char && ceqb q dquote then
            match tag_value rest with
            | Some (v, rest') =>
                if beqb name key then match unescape v with Some s => s | None => [] end
                else tag_get_loop fuel' key rest'
            | None => []
            end
          else []
      | _ => []
      end
  end.
Definition tag_get (key tag : bytes) : bytes := tag_get_loop (List.length tag) key tag.
