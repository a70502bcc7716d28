(** Specification for C114: the texts of JSON (RFC 8259) and the values they describe. *)
From Verif Require Import GoStr ModelJson SpecJson.

(** ** Strings *)
Definition lower_hex : list ascii := ["0"; "1"; "2"; "3"; "4"; "5"; "6"; "7"; "8"; "9"; "a"; "b"; "c"; "d"; "e"; "f"]%char.
Definition upper_hex : list ascii := ["0"; "1"; "2"; "3"; "4"; "5"; "6"; "7"; "8"; "9"; "A"; "B"; "C"; "D"; "E"; "F"]%char.
(** [hexes k n s]: [s] are [k] digits of [n] in base sixteen, in letters of either case. *)
Inductive hexes : nat -> N -> bytes -> Prop :=
| hexes_none : hexes 0 0 []
| hexes_digit k n s i c : hexes k n s -> nth_error lower_hex i = Some c \/ nth_error upper_hex i = Some c -> hexes (S k) (16 * n + N.of_nat i) (s ++ [c]).
Definition short_escapes : list (ascii * N) :=
  [(dquote, 34); (backslash, 92); ("/"%char, 47); ("b"%char, 8); ("f"%char, 12); ("n"%char, 10); ("r"%char, 13); ("t"%char, 9)]%N.
(** [json_char s n]: between quotation marks [s] stands for the character with the number [n]. *)
Inductive json_char : bytes -> N -> Prop :=
| jc_raw n : scalar n -> (32 <= n)%N -> n <> 34%N -> n <> 92%N -> json_char (char_bytes n) n
| jc_short e n : In (e, n) short_escapes -> json_char [backslash; e] n
| jc_hex n h : hexes 4 n h -> scalar n -> json_char (backslash :: "u"%char :: h) n
| jc_pair high low h l : hexes 4 (55296 + high) h -> (high < 1024)%N -> hexes 4 (56320 + low) l -> (low < 1024)%N ->
    json_char ((backslash :: "u"%char :: h) ++ backslash :: "u"%char :: l) (65536 + high * 1024 + low).
Inductive json_text : bytes -> list N -> Prop :=
| jt_end : json_text [] []
| jt_char c n s l : json_char c n -> json_text s l -> json_text (c ++ s) (n :: l).

(** ** Documents *)
Definition blank (w : bytes) : Prop := forall c, In c w -> In (N_of_ascii c) [32; 9; 10; 13]%N.
(** Numbers are whole numbers without an exponent. *)
Inductive value_text : bytes -> jtree -> Prop :=
| vt_null : value_text (B"null") TNull
| vt_true : value_text (B"true") TTrue
| vt_false : value_text (B"false") TFalse
| vt_number z : value_text (Z_dec z) (TNumber (Z_dec z))
| vt_text s l : json_text s l -> value_text (dquote :: s ++ [dquote]) (TText (flat_map char_bytes l))
| vt_no_items w : blank w -> value_text ("["%char :: w ++ B"]") (TItems [])
| vt_items s l : items_text s l -> value_text ("["%char :: s ++ B"]") (TItems l)
| vt_no_members w : blank w -> value_text ("{"%char :: w ++ B"}") (TObject [])
| vt_members s l : members_text s l -> value_text ("{"%char :: s ++ B"}") (TObject l)
with items_text : bytes -> list jtree -> Prop :=
| it_last w s w' j : blank w -> value_text s j -> blank w' -> items_text (w ++ s ++ w') [j]
| it_more w s w' j r l : blank w -> value_text s j -> blank w' -> items_text r l -> items_text (w ++ s ++ w' ++ B"," ++ r) (j :: l)
with members_text : bytes -> list (bytes * jtree) -> Prop :=
| mt_last w k n w1 w2 s w' j : blank w -> json_text k n -> blank w1 -> blank w2 -> value_text s j -> blank w' ->
    members_text (w ++ (dquote :: k ++ [dquote]) ++ w1 ++ B":" ++ w2 ++ s ++ w') [(flat_map char_bytes n, j)]
| mt_more w k n w1 w2 s w' j r l : blank w -> json_text k n -> blank w1 -> blank w2 -> value_text s j -> blank w' -> members_text r l ->
    members_text (w ++ (dquote :: k ++ [dquote]) ++ w1 ++ B":" ++ w2 ++ s ++ w' ++ B"," ++ r) ((flat_map char_bytes n, j) :: l).
(** A file: blanks around one value. *)
Inductive document : bytes -> jtree -> Prop :=
| document_of w s j w' : blank w -> value_text s j -> blank w' -> document (w ++ s ++ w') j.

(** ** Values *)
(** [same_letters f k]: [k] is the name [f] in upper or lower case; the long s (U+017F) and the Kelvin sign (U+212A) are
    other cases of s and k. *)
Definition case_of (c : ascii) : N := let n := N_of_ascii c in if ((65 <=? n) && (n <=? 90))%N then (n + 32)%N else n.
Inductive same_letters : bytes -> bytes -> Prop :=
| sl_end : same_letters [] []
| sl_case c c' f k : case_of c = case_of c' -> same_letters f k -> same_letters (c :: f) (c' :: k)
| sl_long_s c f k : case_of c = 115%N -> same_letters f k -> same_letters (c :: f) (char_bytes 383 ++ k)
| sl_kelvin c f k : case_of c = 107%N -> same_letters f k -> same_letters (c :: f) (char_bytes 8490 ++ k).
(** [describes t v j]: [j] describes the value [v] of type [t]: the members of an object are in any order, at most one
    of each name; a field may be left out or be null if its value is the empty one; members without a field of that
    name, in whatever letters, are allowed. *)
Inductive describes : shape -> gval -> jtree -> Prop :=
| ds_null t : describes t (zero t) TNull
| ds_string s : describes TString (GString s) (TText s)
| ds_bool b : describes TBool (GBool b) (if b then TTrue else TFalse)
| ds_int z : describes TInt (GInt z) (TNumber (Z_dec z))
| ds_list t l js : Forall2 (describes t) l js -> describes (TList t) (GList l) (TItems js)
| ds_map m ms : NoDup (map fst ms) -> (forall k s, In (k, s) m <-> In (k, TText s) ms \/ s = [] /\ In (k, TNull) ms) ->
    (forall k j, In (k, j) ms -> j = TNull \/ exists s, j = TText s) -> describes TMap (GMap m) (TObject ms)
| ds_struct fs vs ms : NoDup (map fst ms) -> map fst vs = map fst fs ->
    (forall k t v j, In (k, t) fs -> In (k, v) vs -> In (k, j) ms -> describes t v j) ->
    (forall k t v, In (k, t) fs -> In (k, v) vs -> ~ In k (map fst ms) -> v = zero t) ->
    (forall k j f, In (k, j) ms -> In f fs -> fst f <> k -> ~ same_letters (fst f) k) ->
    describes (TStruct fs) (GStruct vs) (TObject ms).
