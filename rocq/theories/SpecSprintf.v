(** Independent specification of parameter substitution: a query is a sequence of
    quoted tokens, parameter markers and other characters. *)
From Verif Require Import GoStr.

Inductive token :=
| TQuoted (raw : bytes)
| TMarker (raw : bytes)
| TOther (c : ascii).

(** Characters that open a quoted token, and the character that closes it. *)
Definition quote_opens (d : dialect) (c : ascii) : bool :=
  match d with
  | MySQL => ceqb c "'"%char || ceqb c (ascii_of_nat 34) || ceqb c "`"%char
  | SQLServer => ceqb c "'"%char || ceqb c (ascii_of_nat 34) || ceqb c "["%char
  | _ => ceqb c "'"%char || ceqb c (ascii_of_nat 34)
  end.
Definition quote_closer (c : ascii) : ascii := if ceqb c "["%char then "]"%char else c.

(** Raw contents of a quoted token: closing quotes occur only in pairs. *)
Inductive qbody (cl : ascii) : bytes -> Prop :=
| qb_nil : qbody cl []
| qb_char c s : c <> cl -> qbody cl s -> qbody cl (c :: s)
| qb_pair s : qbody cl s -> qbody cl (cl :: cl :: s).

(** Marker syntax. *)
Definition word_char (c : ascii) : bool := is_letter c || is_digit c || ceqb c "_"%char.
Definition marker_char (d : dialect) (c : ascii) : bool :=
  match d with
  | SQLite => ceqb c "$"%char || ceqb c ":"%char || ceqb c "@"%char || ceqb c "?"%char
  | Postgres => ceqb c "$"%char
  | SQLServer => ceqb c "@"%char || ceqb c "?"%char
  | MySQL | Other => ceqb c "?"%char
  end.
(** Markers made of the single character [?] everywhere but on SQLite. *)
Definition lone_marker (d : dialect) (c : ascii) : bool :=
  match d with SQLite => false | _ => ceqb c "?"%char end.

Inductive toks (d : dialect) : bytes -> list token -> Prop :=
| toks_nil : toks d [] []
| toks_quoted q body rest ts :
    quote_opens d q = true ->
    qbody (quote_closer q) body ->
    hd_error rest <> Some (quote_closer q) ->
    toks d rest ts ->
    toks d (q :: body ++ quote_closer q :: rest) (TQuoted (q :: body ++ [quote_closer q]) :: ts)
| toks_lone c rest ts :
    marker_char d c = true -> lone_marker d c = true ->
    toks d rest ts ->
    toks d (c :: rest) (TMarker [c] :: ts)
| toks_marker c name rest ts :
    marker_char d c = true -> lone_marker d c = false ->
    forallb word_char name = true ->
    (forall c' rest', rest = c' :: rest' -> word_char c' = false) ->
    toks d rest ts ->
    toks d (c :: name ++ rest) (TMarker (c :: name) :: ts)
| toks_other c rest ts :
    quote_opens d c = false -> marker_char d c = false ->
    toks d rest ts ->
    toks d (c :: rest) (TOther c :: ts).

(** No marker is directly followed by a quoted token or by another marker (a lone
    [?] may be). *)
Fixpoint separated (d : dialect) (ts : list token) : Prop :=
  match ts with
  | TMarker m :: ts' =>
      (match m, ts' with
       | [c], TQuoted _ :: _ | [c], TMarker _ :: _ => lone_marker d c = true
       | _, TQuoted _ :: _ | _, TMarker _ :: _ => False
       | _, _ => True
       end) /\ separated d ts'
  | _ :: ts' => separated d ts'
  | [] => True
  end.

Section Subst.
Context {A : Type}.

(** The last argument with the given name. *)
Definition arg_named (args : list (option bytes * A)) (name : bytes) : option A :=
  option_map snd (find (fun a => match fst a with Some n => beqb n name | None => false end) (rev args)).

(** The argument a marker stands for, [k] being the number of positional markers
    before it. *)
Definition marker_arg (d : dialect) (args : list (option bytes * A)) (k : nat) (m : bytes)
  : option A :=
  match m with
  | [] => None
  | c :: name =>
      let num :=
        match d, name with
        | SQLServer, p :: num => if ceqb c "@"%char && (ceqb p "p"%char || ceqb p "P"%char) then num else name
        | _, _ => name
        end in
      match num with
      | [] => if ceqb c "?"%char then option_map snd (nth_error args k) else None
      | _ =>
          match dec_N num with
          | Some n => if (n =? 0)%N then None else option_map snd (nth_error args (N.to_nat (n - 1)))
          | None => match d with Postgres | MySQL => None | _ => arg_named args name end
          end
      end
  end.

(** Substitution: every token is copied, except markers, which are replaced by the
    text of their argument. *)
Fixpoint subst_tokens (d : dialect) (text : A -> option bytes) (args : list (option bytes * A))
  (k : nat) (ts : list token) : option bytes :=
  match ts with
  | [] => Some []
  | t :: ts' =>
      let k' := match t with TMarker m => if beqb m (B"?") then S k else k | _ => k end in
      let here :=
        match t with
        | TQuoted raw => Some raw
        | TOther c => Some [c]
        | TMarker m => match marker_arg d args k m with Some a => text a | None => None end
        end in
      match here, subst_tokens d text args k' ts' with
      | Some a, Some b => Some (a ++ b)
      | _, _ => None
      end
  end.
End Subst.
