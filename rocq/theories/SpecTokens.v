(** How the databases divide a statement into tokens.  Nothing here refers to the model of the Go
    code.  Comments are not understood: a text with -- or /* is not read. *)
From Verif Require Import GoStr SpecSql SpecInsert.

Inductive token :=
| Word (w : bytes)          (* a keyword or a name without quotes *)
| Quoted (v : bytes)        (* a name in quotes *)
| Str (v : bytes)           (* a string constant *)
| Hex (v : bytes)           (* x'..' *)
| Num (w : bytes)           (* a number, or 0x.. *)
| Sym (c : ascii).
Fixpoint take_number (s : bytes) : bytes * bytes :=
  match s with
  | c :: s' => if ident_continue c || ceqb c "." then let '(a, b) := take_number s' in (c :: a, b) else ([], s)
  | [] => ([], [])
  end.
(** A comment starts with the character [c] if [c'] follows. *)
Definition comment (c : ascii) (s : bytes) : bool :=
  match s with
  | c' :: _ => (ceqb c "-" && ceqb c' "-") || (ceqb c "/" && ceqb c' "*")
  | [] => false
  end.
(** One token or one blank. *)
Definition lex_one (d : dialect) (s : bytes) : option (list token * bytes) :=
  match s with
  | [] => None
  | c :: s' =>
      if is_space c then Some ([], s')
      else if ceqb c squote then let? (v, r) := lex_strlit d s' in Some ([Str v], r)
      else if ceqb c (id_open d) then let? (v, r) := lex_quoted (id_close d) s' in Some ([Quoted v], r)
      else match strip_prefix (B"x'") s with
      | Some s'' => let? (h, r) := cut_byte squote s'' in let? v := hex_decode h in Some ([Hex v], r)
      | None =>
          if ident_start c then let '(w, r) := take_ident s in Some ([Word w], r)
          else if is_digit c then let '(w, r) := take_number s in Some ([Num w], r)
          else if comment c s' then None
          else Some ([Sym c], s')
      end
  end.
Fixpoint lex_all (fuel : nat) (d : dialect) (s : bytes) : option (list token) :=
  match s, fuel with
  | [], _ => Some []
  | _, 0 => None
  | _, S n => let? (ts, r) := lex_one d s in let? l := lex_all n d r in Some (ts ++ l)
  end.
Definition tokens (d : dialect) (s : bytes) : option (list token) := lex_all (List.length s) d s.

(** ** Reading tokens *)
Definition toks := list token.
Definition sym (c : ascii) (ts : toks) : option toks :=
  match ts with Sym c' :: r => if ceqb c c' then Some r else None | _ => None end.
(** A keyword, in any case. *)
Definition kw (k : bytes) (ts : toks) : option toks :=
  match ts with Word w :: r => if beqb (to_lower w) (to_lower k) then Some r else None | _ => None end.
Fixpoint kws (ks : list bytes) (ts : toks) : option toks :=
  match ks with [] => Some ts | k :: ks' => let? r := kw k ts in kws ks' r end.
Definition name_token (d : dialect) (t : token) : option bytes :=
  match t with
  | Quoted v => Some v
  | Word w => if bmem (to_lower w) (reserved d) then None else Some (fold_ident d w)
  | _ => None
  end.
Definition name (d : dialect) (ts : toks) : option (bytes * toks) :=
  match ts with t :: r => let? v := name_token d t in Some (v, r) | [] => None end.
(** At least one item, with separators. *)
Fixpoint tlist_ {A} (fuel : nat) (item : toks -> option (A * toks)) (sep : toks -> option toks) (ts : toks) : option (list A * toks) :=
  match fuel with
  | 0 => None
  | S n =>
      let? (a, r) := item ts in
      match sep r with
      | Some r' => let? (l, r'') := tlist_ n item sep r' in Some (a :: l, r'')
      | None => Some ([a], r)
      end
  end.
Definition tlist {A} (item : toks -> option (A * toks)) (sep : toks -> option toks) (ts : toks) : option (list A * toks) :=
  tlist_ (S (List.length ts)) item sep ts.
(** Items, each beginning with a mark. *)
Fixpoint many_ {A} (fuel : nat) (mark : toks -> option toks) (item : toks -> option (A * toks)) (ts : toks) : option (list A * toks) :=
  match mark ts with
  | None => Some ([], ts)
  | Some r =>
      match fuel with
      | 0 => None
      | S n => let? (a, r) := item r in let? (l, r) := many_ n mark item r in Some (a :: l, r)
      end
  end.
Definition many {A} (mark : toks -> option toks) (item : toks -> option (A * toks)) (ts : toks) : option (list A * toks) :=
  many_ (List.length ts) mark item ts.
Definition parens {A} (p : toks -> option (A * toks)) (ts : toks) : option (A * toks) :=
  let? r := sym "(" ts in let? (a, r) := p r in let? r := sym ")" r in Some (a, r).
Definition path (d : dialect) : toks -> option (list bytes * toks) := tlist (name d) (sym ".").
Definition names (d : dialect) : toks -> option (list bytes * toks) := tlist (name d) (sym ",").

(** ** Constants *)
Inductive value := VNull | VNum (w : bytes) | VText (v : bytes) | VBytes (v : bytes) | VBool (b : bool).
Definition constant (d : dialect) (ts : toks) : option (value * toks) :=
  match ts with
  | Str v :: r => Some (VText v, r)
  | Hex v :: r => match d with SQLServer | Postgres => None | _ => Some (VBytes v, r) end
  | Num w :: r =>
      match d, strip_prefix (B"0x") w with
      | SQLServer, Some h => let? v := hex_decode h in Some (VBytes v, r)
      | _, _ => Some (VNum w, r)
      end
  | Sym c :: Num w :: r => if ceqb c "-" then Some (VNum (c :: w), r) else None
  | Word w :: r =>
      if equal_fold w (B"null") then Some (VNull, r)
      else match d with
           | SQLServer => None
           | _ => if equal_fold w (B"true") then Some (VBool true, r) else if equal_fold w (B"false") then Some (VBool false, r) else None
           end
  | _ => None
  end.
