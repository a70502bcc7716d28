(** How Go reads type declarations: a part of the Go specification that is sufficient for
    struct types whose fields have simple types.  Identifiers are those of ASCII. *)
From Verif Require Import GoStr ModelGoTag ModelParser.

Inductive gtoken := GIdent (n : bytes) | GRaw (s : bytes) | GPunct (c : ascii) | GSemi.

Definition ident_start (c : ascii) : bool := is_letter c || ceqb c underscore.
Definition ident_char (c : ascii) : bool := ident_start c || is_digit c.

(** Keywords are no identifiers. *)
Definition go_keywords : list bytes :=
  map B ["break"; "case"; "chan"; "const"; "continue"; "default"; "defer"; "else"; "fallthrough"; "for"; "func"; "go";
         "goto"; "if"; "import"; "interface"; "map"; "package"; "range"; "return"; "select"; "struct"; "switch"; "type";
         "var"]%string.
Definition is_ident (n : bytes) : bool :=
  match n with c :: _ => ident_start c && forallb ident_char n && negb (bmem n go_keywords) | [] => false end.

(** Splitting a text into tokens: a letter begins a word, a backtick a raw string; a line
    that ends in a word, a raw string or a closing brace ends with a semicolon. *)
Inductive lex_state := Between (semi : bool) | InWord (w : bytes) | InRaw (w : bytes).
Definition word_tokens (w : bytes) : list gtoken := match w with [] => [] | _ => [GIdent (rev w)] end.

Fixpoint go_lex (st : lex_state) (s : bytes) : option (list gtoken) :=
  match s with
  | [] =>
      match st with
      | Between semi => Some (if semi then [GSemi] else [])
      | InWord w => Some (word_tokens w ++ [GSemi])
      | InRaw _ => None
      end
  | c :: s' =>
      let between semi :=
        if ceqb c SPACE || ceqb c TAB || ceqb c CR then go_lex (Between semi) s'
        else if ceqb c LF then option_map (app (if semi then [GSemi] else [])) (go_lex (Between false) s')
        else if ident_start c then go_lex (InWord [c]) s'
        else if ceqb c backtick then go_lex (InRaw []) s'
        else if ceqb c "."%char || ceqb c "{"%char || ceqb c "("%char then option_map (cons (GPunct c)) (go_lex (Between false) s')
        else if ceqb c "}"%char || ceqb c ")"%char then option_map (cons (GPunct c)) (go_lex (Between true) s')
        else None in
      match st with
      | Between semi => between semi
      | InWord w =>
          if ident_char c then go_lex (InWord (c :: w)) s'
          else option_map (app (word_tokens w)) (between true)
      | InRaw w =>
          if ceqb c backtick then option_map (cons (GRaw (rev w))) (go_lex (Between true) s')
          else go_lex (InRaw (c :: w)) s'
      end
  end.

(** The field at the beginning of a list of tokens: an embedded type, a name with a type, or a
    name with an empty struct type; then maybe a tag, then a semicolon. *)
Definition go_tag (l : list gtoken) : option bytes * list gtoken :=
  match l with
  | GRaw s :: l' => (Some (B"`" ++ s ++ B"`"), l')
  | _ => (None, l)
  end.
Definition end_field (names : list bytes) (t : go_type) (l : list gtoken) : option (go_field * list gtoken) :=
  let '(tag, l) := go_tag l in
  match l with
  | GSemi :: l' => Some (GoField names t tag, l')
  | _ => None
  end.
Definition go_field_of (l : list gtoken) : option (go_field * list gtoken) :=
  match l with
  | GIdent x :: GPunct c :: GIdent sel :: l' =>
      if ceqb c "."%char && is_ident x && is_ident sel then end_field [] (Selector x sel) l' else None
  | GIdent n :: GIdent x :: GPunct c :: GIdent sel :: l' =>
      if ceqb c "."%char && is_ident n && is_ident x && is_ident sel then end_field [n] (Selector x sel) l' else None
  | GIdent n :: GIdent s :: GPunct c :: GPunct e :: l' =>
      if beqb s (B"struct") && ceqb c "{"%char && ceqb e "}"%char && is_ident n then end_field [n] EmptyStruct l' else None
  | _ => None
  end.
(** The fields up to the closing brace; every field takes at least one token. *)
Fixpoint go_fields_of (fuel : nat) (l : list gtoken) : option (list go_field * list gtoken) :=
  match fuel with
  | O => None
  | S fuel' =>
      match l with
      | GPunct c :: l' => if ceqb c "}"%char then Some ([], l') else None
      | _ =>
          match go_field_of l with
          | Some (f, l') =>
              match go_fields_of fuel' l' with Some (fs, l'') => Some (f :: fs, l'') | None => None end
          | None => None
          end
      end
  end.
(** type NAME struct { fields } *)
Fixpoint go_types_of (fuel : nat) (l : list gtoken) : option (list go_struct) :=
  match l with
  | [] => Some []
  | GIdent t :: GIdent n :: GIdent s :: GPunct c :: l' =>
      match fuel with
      | O => None
      | S fuel' =>
          if beqb t (B"type") && is_ident n && beqb s (B"struct") && ceqb c "{"%char then
            match go_fields_of fuel' l' with
            | Some (fs, GSemi :: l'') =>
                match go_types_of fuel' l'' with Some gs => Some (GoStruct n fs :: gs) | None => None end
            | _ => None
            end
          else None
      end
  | _ => None
  end.
(** The declarations of a text. *)
Definition go_declarations (s : bytes) : option (list go_struct) :=
  match go_lex (Between false) s with
  | Some l => go_types_of (S (List.length l)) l
  | None => None
  end.
