(** Arrays as Postgres writes them, and JSON arrays. *)
From Verif Require Import GoStr.

(** ** Arrays in Postgres *)
(** An array holds elements, which may be missing, or arrays of the same shape. *)
Inductive pg_value := Missing | Element (text : bytes) | Nested (l : list pg_value).

(** The output syntax: an element is written in double quotes if it is empty, contains braces,
    commas, double quotes, backslashes or white space, or is the word NULL; it may always be
    written so.  Double quotes and backslashes in it follow a backslash. *)
Definition special (c : ascii) : Prop :=
  In c ["{"; "}"; ","; """"; "\"; " "]%char \/ 9 <= nat_of_ascii c <= 13.
Definition escaped (c : ascii) : bytes :=
  if ceqb c """"%char || ceqb c "\"%char then ["\"%char; c] else [c].
Inductive written : pg_value -> bytes -> Prop :=
| written_missing : written Missing (B"NULL")
| written_plain e : e <> [] -> (forall c, In c e -> ~ special c) -> equal_fold e (B"NULL") = false -> written (Element e) e
| written_quoted e : written (Element e) (B"""" ++ flat_map escaped e ++ B"""")
| written_nested l ts : written_all l ts -> written (Nested l) (B"{" ++ join (B",") ts ++ B"}")
with written_all : list pg_value -> list bytes -> Prop :=
| written_nil : written_all [] []
| written_cons v t l ts : written v t -> written_all l ts -> written_all (v :: l) (t :: ts).
(** An array whose first element does not have the number 1 is written with its bounds. *)
Inductive written_array : list pg_value -> bytes -> Prop :=
| written_usual l t : written (Nested l) t -> written_array l t
| written_bounds l t lower upper : written (Nested l) t -> written_array l (B"[" ++ lower ++ B":" ++ upper ++ B"]=" ++ t).

(** ** JSON *)
(** JSON text (RFC 8259) of arrays of strings, numbers, booleans and null, without blanks.  A
    character given by its number is one of ASCII. *)
Inductive json := JNull | JTrue | JFalse | JNumber (text : bytes) | JString (text : bytes) | JList (l : list json).
Definition hex_value (c : ascii) : option nat :=
  let n := nat_of_ascii c in
  if (48 <=? n) && (n <=? 57) then Some (n - 48)
  else if (97 <=? n) && (n <=? 102) then Some (n - 87)
  else if (65 <=? n) && (n <=? 70) then Some (n - 55)
  else None.
Definition simple_escape (c : ascii) : option ascii :=
  if ceqb c """"%char then Some c else if ceqb c "\"%char then Some c else if ceqb c "/"%char then Some c
  else if ceqb c "b"%char then Some "008"%char else if ceqb c "f"%char then Some "012"%char
  else if ceqb c "n"%char then Some "010"%char else if ceqb c "r"%char then Some "013"%char
  else if ceqb c "t"%char then Some "009"%char else None.
(** The characters of a string after its opening quote, and what follows the closing one. *)
Fixpoint json_text (s : bytes) : option (bytes * bytes) :=
  match s with
  | [] => None
  | c :: s' =>
      if ceqb c """"%char then Some ([], s')
      else if nat_of_ascii c <? 32 then None
      else if ceqb c "\"%char then
        match s' with
        | e :: s2 =>
            if ceqb e "u"%char then
              match s2 with
              | h1 :: h2 :: h3 :: h4 :: s3 =>
                  match hex_value h1, hex_value h2, hex_value h3, hex_value h4, json_text s3 with
                  | Some 0, Some 0, Some x, Some y, Some (t, r) =>
                      if x <? 8 then Some (ascii_of_nat (16 * x + y) :: t, r) else None
                  | _, _, _, _, _ => None
                  end
              | _ => None
              end
            else match simple_escape e, json_text s2 with Some c', Some (t, r) => Some (c' :: t, r) | _, _ => None end
        | [] => None
        end
      else match json_text s' with Some (t, r) => Some (c :: t, r) | None => None end
  end.
(** A number or a word goes on until a comma or a bracket. *)
Fixpoint json_word (s : bytes) : bytes * bytes :=
  match s with
  | c :: s' => if ceqb c ","%char || ceqb c "]"%char then ([], s) else let (a, r) := json_word s' in (c :: a, r)
  | [] => ([], [])
  end.
(** -?(0|[1-9][0-9]* )(.[0-9]+)?((e|E)(+|-)?[0-9]+)? *)
Fixpoint json_digits (s : bytes) : nat * bytes :=
  match s with
  | c :: s' => if is_digit c then let (n, r) := json_digits s' in (S n, r) else (0, s)
  | [] => (0, [])
  end.
Definition json_exponent (s : bytes) : bool :=
  match s with
  | [] => true
  | c :: s' =>
      (ceqb c "e"%char || ceqb c "E"%char)
      && let s2 := match s' with x :: r => if ceqb x "+"%char || ceqb x "-"%char then r else s' | [] => s' end in
         match json_digits s2 with (S _, []) => true | _ => false end
  end.
Definition json_fraction (s : bytes) : bool :=
  match s with
  | c :: s' =>
      if ceqb c "."%char then match json_digits s' with (S _, r) => json_exponent r | _ => false end else json_exponent s
  | [] => true
  end.
Definition json_number (s : bytes) : bool :=
  let s := match s with c :: s' => if ceqb c "-"%char then s' else s | [] => s end in
  match s with
  | c :: s' =>
      if ceqb c "0"%char then json_fraction s'
      else match json_digits s with (S _, r) => json_fraction r | _ => false end
  | [] => false
  end.
Definition json_scalar (s : bytes) : option json :=
  if beqb s (B"null") then Some JNull else if beqb s (B"true") then Some JTrue else if beqb s (B"false") then Some JFalse
  else if json_number s then Some (JNumber s) else None.
Fixpoint json_items (fuel : nat) (s : bytes) : option (list json) :=
  match fuel with
  | O => None
  | S fuel =>
      let more (v : json) (r : bytes) :=
        match r with
        | [c] => if ceqb c "]"%char then Some [v] else None
        | c :: r' => if ceqb c ","%char then match json_items fuel r' with Some l => Some (v :: l) | None => None end else None
        | [] => None
        end in
      match s with
      | c :: s' =>
          if ceqb c """"%char then match json_text s' with Some (t, r) => more (JString t) r | None => None end
          else let (w, r) := json_word s in match json_scalar w with Some v => more v r | None => None end
      | [] => None
      end
  end.
(** A text is a flat JSON array. *)
Definition read_json (s : bytes) : option json :=
  match s with
  | c :: s' =>
      if ceqb c "["%char then
        if beqb s' (B"]") then Some (JList []) else match json_items (S (List.length s')) s' with Some l => Some (JList l) | None => None end
      else None
  | [] => None
  end.

(** ** The JSON of an array *)
(** Which JSON value stands for an element of an array with elements of a type. *)
Inductive pg_class := Booleans | Integers | Texts.
Definition stands_for (k : pg_class) (v : pg_value) (j : json) : Prop :=
  match v, j with
  | Missing, JNull => True
  | Element t, JTrue => k = Booleans /\ t = B"t"
  | Element t, JFalse => k = Booleans /\ t = B"f"
  | Element t, JNumber n => k = Integers /\ t = n
  | Element t, JString s => k = Texts /\ t = s
  | _, _ => False
  end.
(** What an element can be. *)
Definition element_of (k : pg_class) (v : pg_value) : Prop :=
  match v, k with
  | Missing, _ => True
  | Element t, Booleans => t = B"t" \/ t = B"f"
  | Element t, Integers => exists z, (- 2 ^ 63 <= z < 2 ^ 63)%Z /\ t = Z_dec z
  | Element t, Texts => True
  | Nested _, _ => False
  end.
(** The types of columns that hold such arrays. *)
Definition type_class (t : bytes) : option pg_class :=
  let is (l : list string) := existsb (fun s => beqb t (B s)) l in
  if is ["BOOLEAN[]"]%string then Some Booleans
  else if is ["SMALLINT[]"; "INT[]"; "INTEGER[]"; "BIGINT[]"]%string then Some Integers
  else if is ["VARCHAR[]"; "CHAR[]"; "TEXT[]"]%string then Some Texts
  else None.
