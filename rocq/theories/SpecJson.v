(** Specification for C109 and C110: texts in UTF-8, values that have a type, what one file leaves of the values of another. *)
From Verif Require Import GoStr ModelJson.

(** UTF-8 (RFC 3629): the bytes of a character with the number [n]. *)
Definition scalar (n : N) : Prop := (n < 55296 \/ 57344 <= n < 1114112)%N.
Definition char_bytes (n : N) : bytes :=
  if (n <? 128)%N then [ascii_of_N n]
  else if (n <? 2048)%N then [ascii_of_N (192 + n / 64); ascii_of_N (128 + n mod 64)]%N
  else if (n <? 65536)%N then [ascii_of_N (224 + n / 4096); ascii_of_N (128 + n / 64 mod 64); ascii_of_N (128 + n mod 64)]%N
  else [ascii_of_N (240 + n / 262144); ascii_of_N (128 + n / 4096 mod 64); ascii_of_N (128 + n / 64 mod 64); ascii_of_N (128 + n mod 64)]%N.
Definition utf8 (s : bytes) : Prop := exists l, Forall scalar l /\ s = flat_map char_bytes l.
(** [mended s s']: [s'] is [s] with U+FFFD for every byte at which no character begins. *)
Inductive mended : bytes -> bytes -> Prop :=
| mended_end : mended [] []
| mended_char n s s' : scalar n -> mended s s' -> mended (char_bytes n ++ s) (char_bytes n ++ s')
| mended_byte a s s' : (forall n r, scalar n -> a :: s <> char_bytes n ++ r) -> mended s s' -> mended (a :: s) (char_bytes 65533 ++ s').

(** The keys of a map, each once, in order. *)
Fixpoint ordered (m : list (bytes * bytes)) : Prop :=
  match m with
  | [] => True
  | p :: m' => (forall q, In q m' -> bltb (fst p) (fst q) = true) /\ ordered m'
  end.
(** A value has a type; its texts are UTF-8. *)
Inductive fits : shape -> gval -> Prop :=
| fits_string s : fits TString (GString s)
| fits_bool b : fits TBool (GBool b)
| fits_int z : (- 2 ^ 63 <= z < 2 ^ 63)%Z -> fits TInt (GInt z)
| fits_list t l : Forall (fits t) l -> fits (TList t) (GList l)
| fits_map m : ordered m -> fits TMap (GMap m)
| fits_struct fs vs : Forall2 (fun f v => fst f = fst v /\ fits (snd f) (snd v)) fs vs -> fits (TStruct fs) (GStruct vs).
Inductive texts_utf8 : gval -> Prop :=
| texts_string s : utf8 s -> texts_utf8 (GString s)
| texts_bool b : texts_utf8 (GBool b)
| texts_int z : texts_utf8 (GInt z)
| texts_list l : Forall texts_utf8 l -> texts_utf8 (GList l)
| texts_map m : Forall (fun p => utf8 (fst p) /\ utf8 (snd p)) m -> texts_utf8 (GMap m)
| texts_struct vs : Forall (fun v => texts_utf8 (snd v)) vs -> texts_utf8 (GStruct vs).

(** ** Two files *)
(** Nothing is written for it. *)
Definition left_out (v : gval) : bool :=
  match v with GString s => match s with [] => true | _ => false end | GBool b => negb b | GInt z => (z =? 0)%Z
  | GList l => match l with [] => true | _ => false end | GMap m => match m with [] => true | _ => false end | GStruct _ => false end.
Definition with_key (m : list (bytes * bytes)) (p : bytes * bytes) : list (bytes * bytes) :=
  filter (fun q => bltb (fst q) (fst p)) m ++ p :: filter (fun q => bltb (fst p) (fst q)) m.
(** What is left of [old] under [new]: the fields that [new] leaves out keep their values; the elements of lists are
    matched by their places; lists are as long as the new ones. *)
Fixpoint overlay (old new : gval) : gval :=
  match new with
  | GStruct ns =>
      GStruct ((fix both (os ns : list (bytes * gval)) {struct ns} :=
                  match os, ns with
                  | o :: os', n :: ns' => (fst n, if left_out (snd n) then snd o else overlay (snd o) (snd n)) :: both os' ns'
                  | _, _ => []
                  end) (match old with GStruct os => os | _ => [] end) ns)
  | GList ns =>
      GList ((fix both (os ns : list gval) {struct ns} :=
                match ns, os with
                | [], _ => []
                | n :: ns', o :: os' => overlay o n :: both os' ns'
                | n :: ns', [] => n :: both [] ns'
                end) (match old with GList os => os | _ => [] end) ns)
  | GMap m => GMap (fold_left with_key m (match old with GMap m0 => m0 | _ => [] end))
  | _ => new
  end.

(** ** Tables of a catalog *)
Definition part (k : bytes) (v : gval) : gval :=
  match v with
  | GStruct vs => match find (fun p => beqb (fst p) k) vs with Some p => snd p | None => GBool false end
  | _ => GBool false
  end.
Definition elements (v : gval) : list gval := match v with GList l => l | _ => [] end.
Definition text_of (v : gval) : bytes := match v with GString s => s | _ => [] end.
(** A catalog has a table, as it is, in a schema of that name. *)
Definition has_table (cat : gval) (s : bytes) (t : gval) : Prop :=
  exists sch, In sch (elements (part (B"Schemas") cat)) /\ text_of (part (B"SchemaName") sch) = s /\ In t (elements (part (B"Tables") sch)).
