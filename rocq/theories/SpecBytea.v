(** Specification for C124: the two texts of a binary value in Postgres ("Binary Data Types"). *)
From Verif Require Import GoStr SpecArray.

(** ** Hex: two digits per byte, letters of both kinds *)
Inductive nibble : ascii -> nat -> Prop :=
| nibble_small i c : nth_error ["0"; "1"; "2"; "3"; "4"; "5"; "6"; "7"; "8"; "9"; "a"; "b"; "c"; "d"; "e"; "f"]%char i = Some c -> nibble c i
| nibble_capital i c : nth_error ["A"; "B"; "C"; "D"; "E"; "F"]%char i = Some c -> nibble c (10 + i).
Inductive hex_text : bytes -> bytes -> Prop :=
| hex_end : hex_text [] []
| hex_more a b x y t v : nibble a x -> nibble b y -> hex_text t v -> hex_text (a :: b :: t) (ascii_of_nat (16 * x + y) :: v).
(** ** Escape: a backslash is doubled, any byte may be a backslash and three octal digits *)
Definition octal (c : ascii) (n : nat) : Prop := nth_error ["0"; "1"; "2"; "3"; "4"; "5"; "6"; "7"]%char n = Some c.
Inductive escape_text : bytes -> bytes -> Prop :=
| escape_end : escape_text [] []
| escape_plain c t v : c <> "\"%char -> escape_text t v -> escape_text (c :: t) (c :: v)
| escape_double t v : escape_text t v -> escape_text ("\" :: "\" :: t)%char ("\"%char :: v)
| escape_octal a b c x y z t v : octal a x -> octal b y -> octal c z -> 64 * x + 8 * y + z < 256 -> escape_text t v ->
    escape_text ("\"%char :: a :: b :: c :: t) (ascii_of_nat (64 * x + 8 * y + z) :: v).
Inductive bytea_text : bytes -> bytes -> Prop :=
| bytea_hex t v : hex_text t v -> bytea_text (B"\x" ++ t) v
| bytea_escape t v : escape_text t v -> bytea_text t v.
(** The elements of an array, each given, with their values. *)
Inductive binary_elements : list pg_value -> list bytes -> Prop :=
| no_elements : binary_elements [] []
| more_elements e v l vs : bytea_text e v -> binary_elements l vs -> binary_elements (Element e :: l) (v :: vs).
