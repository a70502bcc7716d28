(** Go byte strings and the functions of Go's [strings], [strconv] and [path]
    packages that the modelled code calls.  A Go string is a sequence of bytes. *)
From Coq Require Export Ascii String Arith NArith ZArith Bool List Lia.
Export ListNotations.
#[global] Open Scope list_scope.

Definition bytes := list ascii.

(** [B"abc"]: a byte string from a literal. *)
Fixpoint B (s : string) : bytes :=
  match s with
  | EmptyString => []
  | String c s' => c :: B s'
  end.
Arguments B s%string.

(** Outcome of a Go call: a value, an [error] return, or a run-time panic. *)
Inductive result (A : Type) : Type :=
| Ok (a : A)
| Err
| Panic.
Arguments Ok {A} a.
Arguments Err {A}.
Arguments Panic {A}.

Definition bindr {A B} (r : result A) (f : A -> result B) : result B :=
  match r with Ok a => f a | Err => Err | Panic => Panic end.

(** Database dialects: ddl/ddl.go:39-45.  [Other] stands for every other
    string (including "oracle" and the empty string), which the modelled
    functions all treat alike. *)
Inductive dialect := SQLite | Postgres | MySQL | SQLServer | Other.

Definition dialect_eqb (a b : dialect) : bool :=
  match a, b with
  | SQLite, SQLite | Postgres, Postgres | MySQL, MySQL
  | SQLServer, SQLServer | Other, Other => true
  | _, _ => false
  end.

(** ** Characters *)
Definition ceqb (a b : ascii) : bool := Ascii.eqb a b.
Definition cn (a : ascii) : nat := nat_of_ascii a.
Definition is_digit (c : ascii) : bool := (48 <=? cn c) && (cn c <=? 57).
Definition is_lower (c : ascii) : bool := (97 <=? cn c) && (cn c <=? 122).
Definition is_upper (c : ascii) : bool := (65 <=? cn c) && (cn c <=? 90).
Definition is_letter (c : ascii) : bool := is_lower c || is_upper c.
Definition underscore : ascii := "_"%char.
Definition squote : ascii := "'"%char.
Definition dquote : ascii := ascii_of_nat 34.
Definition backtick : ascii := "`"%char.
Definition LF : ascii := ascii_of_nat 10.
Definition CR : ascii := ascii_of_nat 13.
Definition TAB : ascii := ascii_of_nat 9.
Definition SPACE : ascii := ascii_of_nat 32.

Definition to_lower_c (c : ascii) : ascii :=
  if is_upper c then ascii_of_nat (cn c + 32) else c.
Definition to_upper_c (c : ascii) : ascii :=
  if is_lower c then ascii_of_nat (cn c - 32) else c.

(** strings.ToLower / strings.ToUpper restricted to ASCII letters. *)
Definition to_lower (s : bytes) : bytes := map to_lower_c s.
Definition to_upper (s : bytes) : bytes := map to_upper_c s.

(** ** Comparison *)
Fixpoint beqb (a b : bytes) : bool :=
  match a, b with
  | [], [] => true
  | x :: a', y :: b' => ceqb x y && beqb a' b'
  | _, _ => false
  end.

(** Go's [<] on strings: bytewise lexicographic. *)
Fixpoint bltb (a b : bytes) : bool :=
  match a, b with
  | _, [] => false
  | [], _ :: _ => true
  | x :: a', y :: b' =>
      if cn x <? cn y then true
      else if cn y <? cn x then false
      else bltb a' b'
  end.

(** Membership of a string in a list (Go map used as a set). *)
Definition bmem (s : bytes) (l : list bytes) : bool := existsb (beqb s) l.

(** ** Prefixes and suffixes *)
(** [strip_prefix p s = Some r] iff [s = p ++ r]. *)
Fixpoint strip_prefix (p s : bytes) : option bytes :=
  match p, s with
  | [], _ => Some s
  | x :: p', y :: s' => if ceqb x y then strip_prefix p' s' else None
  | _ :: _, [] => None
  end.

(** strings.HasPrefix *)
Definition has_prefix (s p : bytes) : bool :=
  match strip_prefix p s with Some _ => true | None => false end.
(** strings.TrimPrefix *)
Definition trim_prefix (s p : bytes) : bytes :=
  match strip_prefix p s with Some r => r | None => s end.
(** strings.HasSuffix *)
Definition has_suffix (s p : bytes) : bool := has_prefix (rev s) (rev p).
(** strings.TrimSuffix *)
Definition trim_suffix (s p : bytes) : bytes :=
  match strip_prefix (rev p) (rev s) with Some r => rev r | None => s end.

(** strings.IndexByte: the split at the first occurrence of [c]. *)
Fixpoint cut_byte (c : ascii) (s : bytes) : option (bytes * bytes) :=
  match s with
  | [] => None
  | x :: s' =>
      if ceqb x c then Some ([], s')
      else match cut_byte c s' with
           | Some (a, b) => Some (x :: a, b)
           | None => None
           end
  end.

(** strings.Cut for a general separator. *)
Fixpoint cut (sep s : bytes) : option (bytes * bytes) :=
  match strip_prefix sep s with
  | Some r => Some ([], r)
  | None =>
      match s with
      | [] => None
      | x :: s' =>
          match cut sep s' with
          | Some (a, b) => Some (x :: a, b)
          | None => None
          end
      end
  end.

(** strings.Contains *)
Definition contains (s sub : bytes) : bool :=
  match cut sub s with Some _ => true | None => false end.

(** strings.ReplaceAll for a one-byte pattern. *)
Definition replace_byte (c : ascii) (new : bytes) (s : bytes) : bytes :=
  flat_map (fun x => if ceqb x c then new else [x]) s.

(** bytes.ReplaceAll for the two-byte pattern [a b]. *)
Fixpoint replace2 (a b : ascii) (new : bytes) (s : bytes) : bytes :=
  match s with
  | [] => []
  | x :: s' =>
      match s' with
      | y :: s'' =>
          if ceqb x a && ceqb y b then new ++ replace2 a b new s''
          else x :: replace2 a b new s'
      | [] => [x]
      end
  end.

(** strings.Join *)
Fixpoint join (sep : bytes) (l : list bytes) : bytes :=
  match l with
  | [] => []
  | [x] => x
  | x :: l' => x ++ sep ++ join sep l'
  end.

(** strings.Split on a single byte (never returns an empty list). *)
Fixpoint split_byte (c : ascii) (s : bytes) : list bytes :=
  match s with
  | [] => [[]]
  | x :: s' =>
      if ceqb x c then [] :: split_byte c s'
      else match split_byte c s' with
           | w :: ws => (x :: w) :: ws
           | [] => [[x]]
           end
  end.

(** strings.TrimSpace restricted to ASCII white space (unicode.IsSpace below 128). *)
Definition is_space (c : ascii) : bool :=
  let n := cn c in (n =? 32) || ((9 <=? n) && (n <=? 13)).
Fixpoint trim_left (s : bytes) : bytes :=
  match s with
  | [] => []
  | x :: s' => if is_space x then trim_left s' else s
  end.
Definition trim_right (s : bytes) : bytes := rev (trim_left (rev s)).
Definition trim_space (s : bytes) : bytes := trim_right (trim_left s).

(** strings.Count of a single byte. *)
Fixpoint count_byte (c : ascii) (s : bytes) : nat :=
  match s with
  | [] => 0
  | x :: s' => (if ceqb x c then 1 else 0) + count_byte c s'
  end.

(** path.Base for slash-separated file names without trailing slash:
    the part after the last slash. *)
Fixpoint after_last_slash (s acc : bytes) : bytes :=
  match s with
  | [] => rev acc
  | x :: s' => if ceqb x "/"%char then after_last_slash s' [] else after_last_slash s' (x :: acc)
  end.
Definition basename (s : bytes) : bytes := after_last_slash s [].

(** ** Numbers *)
Definition digit (n : N) : ascii := ascii_of_N (48 + n).

Fixpoint N_dec_aux (fuel : nat) (n : N) (acc : bytes) : bytes :=
  match fuel with
  | O => acc
  | S f =>
      let acc' := digit (n mod 10) :: acc in
      if (n / 10 =? 0)%N then acc' else N_dec_aux f (n / 10) acc'
  end.
(** strconv.FormatUint(n, 10) *)
Definition N_dec (n : N) : bytes := N_dec_aux (S (N.to_nat (N.log2 n))) n [].
(** strconv.FormatInt(z, 10) *)
Definition Z_dec (z : Z) : bytes :=
  match z with
  | Z0 => N_dec 0
  | Zpos p => N_dec (Npos p)
  | Zneg p => "-"%char :: N_dec (Npos p)
  end.
(** strconv.Itoa on a length or position. *)
Definition nat_dec (n : nat) : bytes := N_dec (N.of_nat n).

(** Decimal value of a digit string. *)
Definition digit_val (c : ascii) : N := (N_of_ascii c - 48)%N.
Fixpoint dec_N_acc (acc : N) (s : bytes) : option N :=
  match s with
  | [] => Some acc
  | c :: s' => if is_digit c then dec_N_acc (acc * 10 + digit_val c)%N s' else None
  end.
Definition dec_N (s : bytes) : option N :=
  match s with [] => None | _ => dec_N_acc 0 s end.

(** strings.EqualFold restricted to ASCII. *)
Definition equal_fold (a b : bytes) : bool := beqb (to_lower a) (to_lower b).

(** ** Sorting: sort.Strings (insertion sort; only the result matters). *)
Fixpoint insert_sorted (s : bytes) (l : list bytes) : list bytes :=
  match l with
  | [] => [s]
  | x :: l' => if bltb x s then x :: insert_sorted s l' else s :: l
  end.
Definition sort_strings (l : list bytes) : list bytes := fold_right insert_sorted [] l.
