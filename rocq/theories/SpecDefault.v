(** What a default of a column means, how the databases report it and what they accept after DEFAULT.
    Written from their documentation; nothing here refers to the model of the Go code. *)
From Verif Require Import GoStr SpecSql SpecInsert SpecTokens SpecDdl SpecDdlText.

(** ** Defaults *)
(** MySQL distinguishes values from expressions; elsewhere a value is an expression, too. *)
Inductive given := Without | GivenValue (v : bytes) | GivenFormula (e : bytes).
Inductive default := Value (v : bytes) | Formula (ts : toks).
Definition meaning (d : dialect) (g : given) : option default :=
  match g with Without => None | GivenValue v => Some (Value v) | GivenFormula e => Some (Formula (text d e)) end.
Definition given_ok (d : dialect) (g : given) : Prop :=
  match g with
  | Without => True
  | GivenValue _ => d = MySQL
  | GivenFormula e => fits d [] e
  end.
(** Brackets around an expression mean nothing. *)
Fixpoint bare_ (fuel : nat) (ts : toks) : toks :=
  match fuel with
  | 0 => ts
  | S n => match parens expression ts with Some (e, []) => bare_ n e | _ => ts end
  end.
Definition bare (ts : toks) : toks := bare_ (List.length ts) ts.
Definition same (a b : option default) : Prop :=
  match a, b with
  | None, None => True
  | Some (Value v), Some (Value w) => v = w
  | Some (Formula x), Some (Formula y) => bare x = bare y
  | _, _ => False
  end.

(** ** What the database reports *)
(** SQLite: the text, without the brackets around an expression.  MySQL: a value as it is, without
    quotes; an expression with a backslash before every quote.  SQL Server: in brackets.  Nothing for a
    column without default. *)
Definition report (d : dialect) (g : given) : bytes :=
  match g with
  | Without => []
  | GivenValue v => v
  | GivenFormula e =>
      match d with
      | MySQL => replace_byte squote (B"\'") e
      | SQLServer => B"(" ++ e ++ B")"
      | _ => e
      end
  end.

(** ** What follows DEFAULT *)
(** https://www.sqlite.org/syntax/column-constraint.html: a literal, a signed number or an expression in
    brackets. *)
Definition time_words : list bytes := [B"CURRENT_DATE"; B"CURRENT_TIME"; B"CURRENT_TIMESTAMP"].
Definition signed_number (ts : toks) : bool :=
  match ts with
  | [Num _] => true
  | [Sym c; Num _] => ceqb c "+" || ceqb c "-"
  | _ => false
  end.
Definition sqlite_literal (ts : toks) : bool :=
  signed_number ts
  || match ts with
     | [Str _] | [Hex _] => true
     | [t] => is_word (B"NULL" :: B"TRUE" :: B"FALSE" :: time_words) t
     | _ => false
     end.
(** Numbers lose leading zeros. *)
Fixpoint without_zeros (w : bytes) : bytes :=
  match w with
  | c :: (x :: _) as w' => if ceqb c "0" && is_digit x then without_zeros w' else w
  | _ => w
  end.
Definition decimal (w : bytes) : bool := forallb (fun c => is_digit c || ceqb c ".") w.
Definition minus_number (w : bytes) : bytes :=
  if existsb (fun c => is_digit c && negb (ceqb c "0")) w then "-"%char :: without_zeros w else without_zeros w.
(** MySQL: a literal, the time or an expression in brackets. *)
Definition mysql_default (ts : toks) : option (option default) :=
  match ts with
  | [Str v] => Some (Some (Value v))
  | [Num w] => if decimal w then Some (Some (Value (without_zeros w))) else None
  | [Sym c; Num w] => if ceqb c "-" && decimal w then Some (Some (Value (minus_number w))) else None
  | [Word w] =>
      if equal_fold w (B"NULL") then Some None
      else if equal_fold w (B"TRUE") then Some (Some (Value (B"1")))
      else if equal_fold w (B"FALSE") then Some (Some (Value (B"0")))
      else if equal_fold w (B"CURRENT_TIMESTAMP") then Some (Some (Formula ts))
      else None
  | _ => match parens expression ts with Some (e, []) => Some (Some (Formula e)) | _ => None end
  end.
(** Postgres: an expression (b_expr), which does not have these words outside of brackets. *)
Definition not_plain : list bytes := map B ["AND"; "OR"; "NOT"; "IN"; "IS"; "LIKE"; "ILIKE"; "SIMILAR"; "BETWEEN"]%string.
Definition clause (d : dialect) (ts : toks) : option (option default) :=
  match d with
  | SQLite =>
      if sqlite_literal ts then Some (Some (Formula ts))
      else match parens expression ts with Some (e, []) => Some (Some (Formula e)) | _ => None end
  | MySQL => mysql_default ts
  | Postgres => if whole not_plain 0 ts then Some (Some (Formula ts)) else None
  | _ => if whole [] 0 ts then Some (Some (Formula ts)) else None
  end.
(** The text [t] after DEFAULT gives the default [g]; without a text there is no clause. *)
Definition gives (d : dialect) (t : bytes) (g : given) : Prop :=
  match t with
  | [] => g = Without
  | _ => exists ts v, tokens d t = Some ts /\ clause d ts = Some v /\ same v (meaning d g)
  end.

(** ** Defaults that are read as they are *)
(** Brackets at both ends belong together, quotes at both ends are those of one string. *)
Definition sound_brackets (d : dialect) (s : bytes) : Prop := forall e, s = B"(" ++ e ++ B")" -> fits d [] e.
Definition sound_quotes (d : dialect) (s : bytes) : Prop :=
  forall e, s = [squote] ++ e ++ [squote] -> exists v, tokens d s = Some [Str v].
(** 0, 5, 10.50, -3, but not 007. *)
Definition plain_decimal (w : bytes) : bool :=
  match w with c :: _ => is_digit c | [] => false end && decimal w && beqb (without_zeros w) w.
Definition plain_number (v : bytes) : bool :=
  match v with
  | c :: w => plain_decimal v || (ceqb c "-" && plain_decimal w && beqb (minus_number w) v)
  | [] => false
  end.
Definition words : list bytes := B"TRUE" :: B"FALSE" :: B"NULL" :: time_words.
(** [flt] are the texts that Go takes for numbers. *)
Definition clear_default (flt : bytes -> bool) (d : dialect) (g : given) : Prop :=
  match g with
  | Without => True
  | GivenValue v =>
      v <> [] /\ ~ In "\"%char v /\ is_expression v = false /\ (forall e, v <> [squote] ++ e ++ [squote])
      /\ (forall a b, v <> a ++ squote :: squote :: b)
      /\ (forall w, In w words -> equal_fold v w = false) /\ (flt v = true -> plain_number v = true)
  | GivenFormula e =>
      match d with
      | SQLite => sound_brackets d e /\ sound_quotes d e /\ (flt e = true -> signed_number (text d e) = true)
      | Postgres => whole not_plain 0 (text d e) = true
      | MySQL =>
          equal_fold e (B"CURRENT_TIMESTAMP") = true
          \/ is_expression e = true /\ sound_brackets d e /\ ~ In squote e
      | _ => sound_brackets d e
      end
  end.
