(** Model of the parts of internal/pqarray/pqarray.go for binary values: ByteaArray, parseBytea and encodeBytea.

    Simplified: nil and empty slices are not distinguished. *)
From Verif Require Import GoStr ModelSq ModelDdl ModelCache ModelCsv ModelArray.

(** hex.Encode. *)
Definition hex_figure (n : nat) : ascii := nth n ["0"; "1"; "2"; "3"; "4"; "5"; "6"; "7"; "8"; "9"; "a"; "b"; "c"; "d"; "e"; "f"]%char "000"%char.
Definition hex_byte (c : ascii) : bytes := [hex_figure (cn c / 16); hex_figure (cn c mod 16)].
Definition hex_encode (v : bytes) : bytes := flat_map hex_byte v.
(** hex.Decode: both kinds of letters; an odd number of digits is an error. *)
Definition from_hex (c : ascii) : option nat :=
  let n := cn c in
  if (48 <=? n) && (n <=? 57) then Some (n - 48)
  else if (97 <=? n) && (n <=? 102) then Some (n - 87)
  else if (65 <=? n) && (n <=? 70) then Some (n - 55)
  else None.
Fixpoint hex_decode (s : bytes) : result bytes :=
  match s with
  | [] => Ok []
  | [_] => Err
  | a :: b :: r =>
      match from_hex a, from_hex b with
      | Some x, Some y => bindr (hex_decode r) (fun v => Ok (ascii_of_nat (16 * x + y) :: v))
      | _, _ => Err
      end
  end.
(** strconv.ParseUint(s, 8, 8) for three characters. *)
Definition from_octal (c : ascii) : option nat := let n := cn c in if (48 <=? n) && (n <=? 55) then Some (n - 48) else None.
Definition octal_byte (a b c : ascii) : result ascii :=
  match from_octal a, from_octal b, from_octal c with
  | Some x, Some y, Some z => let n := 64 * x + 8 * y + z in if n <=? 255 then Ok (ascii_of_nat n) else Err
  | _, _, _ => Err
  end.
(** The loop of parseBytea, pqarray.go:915-947; bytes without a backslash are taken one by one. *)
Fixpoint unescape (s : bytes) : result bytes :=
  match s with
  | [] => Ok []
  | c :: r =>
      if ceqb c backslash then
        match r with
        | [] => Err
        | a :: r1 =>
            if ceqb a backslash then bindr (unescape r1) (fun v => Ok (backslash :: v))
            else match r1 with
                 | b :: d :: r2 => bindr (octal_byte a b d) (fun x => bindr (unescape r2) (fun v => Ok (x :: v)))
                 | _ => Err
                 end
        end
      else bindr (unescape r) (fun v => Ok (c :: v))
  end.
(** parseBytea, pqarray.go:906-950. *)
Definition parse_bytea (s : bytes) : result bytes :=
  match strip_prefix (B"\x") s with Some t => hex_decode t | None => unescape s end.
(** encodeBytea, pqarray.go:990-1011. *)
Definition octal_figures (c : ascii) : bytes :=
  [hex_figure (cn c / 64); hex_figure (cn c / 8 mod 8); hex_figure (cn c mod 8)].
Definition escape_byte (c : ascii) : bytes :=
  if ceqb c backslash then [backslash; backslash]
  else if (cn c <? 32) || (126 <? cn c) then backslash :: octal_figures c
  else [c].
Definition encode_bytea (version : Z) (v : bytes) : bytes :=
  if (90000 <=? version)%Z then B"\x" ++ hex_encode v else flat_map escape_byte v.
(** ByteaArray.Value, pqarray.go:198-227: every element with a comma before it, then the first byte of all is overwritten. *)
Definition bytea_element (v : bytes) : bytes := B",""\\x" ++ hex_encode v ++ B"""".
Definition bytea_array_value (l : list bytes) : bytes :=
  match flat_map bytea_element l with [] => B"{}" | _ :: r => lbrace :: r ++ [rbrace] end.
(** ByteaArray.scanBytes, pqarray.go:176-194. *)
Definition scan_bytea (v : option bytes) : result bytes := parse_bytea (match v with Some s => s | None => [] end).
Definition bytea_array_scan (s : bytes) : result (list bytes) := bindr (scan_linear s) (each scan_bytea).
