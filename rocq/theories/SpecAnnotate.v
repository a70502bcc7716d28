(** What a database says about a script that fails, and how it is to be shown.

    PostgreSQL counts the position of an error in characters of the text,
    from 1, and "at end of input" is the position after the last character
    (protocol documentation, "Error and Notice Message Fields"; elog's
    errposition).  A character of UTF-8 is a byte that is not of the form
    10xxxxxx and the bytes of that form after it. *)
From Verif Require Import GoStr.

Definition continuation (c : ascii) : bool := (128 <=? cn c) && (cn c <? 192).
(** The text before its character number [n], counted from 1. *)
Fixpoint before_char (n : nat) (s : bytes) : bytes :=
  match s with
  | [] => []
  | c :: t =>
      if continuation c then c :: before_char n t
      else match n with 0 | 1 => [] | S n' => c :: before_char n' t end
  end.
Fixpoint characters (s : bytes) : nat :=
  match s with [] => 0 | c :: t => (if continuation c then 0 else 1) + characters t end.
(** The number of the line that a character is on: one more than the line
    feeds before it. *)
Inductive line_feeds : bytes -> nat -> Prop :=
| lf_nil : line_feeds [] 0
| lf_lf s n : line_feeds s n -> line_feeds (LF :: s) (S n)
| lf_other c s n : c <> LF -> line_feeds s n -> line_feeds (c :: s) n.
Definition on_line (query : bytes) (pos line : nat) : Prop := line_feeds (before_char pos query) (line - 1) /\ 1 <= line.

(** A number as it is written: digits, no sign, no zero in front of others. *)
Definition writes (t : bytes) (n : nat) : Prop :=
  dec_N t = Some (N.of_nat n) /\ (exists c r, t = c :: r /\ (r <> [] -> c <> "0"%char)).

(** What PostgreSQL reports: the text, where, and two further fields that may
    be empty. *)
Record pgreport := { r_text : bytes; r_position : option nat; r_detail : bytes; r_hint : bytes }.
(** A position is that of a character of the text or of its end. *)
Definition report_of (query : bytes) (r : pgreport) : Prop :=
  match r_position r with None => True | Some p => 1 <= p <= characters query + 1 end.

(** How it is to be shown: the line, the text, the detail and the hint, each
    as the database gave it. *)
Definition extra (label s : bytes) : bytes := match s with [] => [] | _ => LF :: label ++ B": " ++ s end.
Definition to_show (query : bytes) (r : pgreport) (shown : bytes) : Prop :=
  exists front, shown = front ++ r_text r ++ extra (B"detail") (r_detail r) ++ extra (B"hint") (r_hint r) /\
    match r_position r with
    | None => front = []
    | Some p => exists line n, on_line query p line /\ writes n line /\ front = B"line " ++ n ++ B": "
    end.

(** What SQL Server reports: a text, the line, and all the messages of the
    batch. *)
Record msreport := { m_text : bytes; m_line : nat; m_all : list bytes }.
Fixpoint each_below (l : list bytes) : bytes := match l with [] => [] | m :: l' => LF :: m ++ each_below l' end.
Definition ms_to_show (r : msreport) (shown : bytes) : Prop :=
  exists n, writes n (m_line r) /\
    shown = B"line " ++ n ++ B": " ++ m_text r ++
      match m_all r with [] | [_] => [] | l => each_below l end.

(** What becomes of a text that is printed as a format when no argument is
    left (Go's documentation of fmt, "Format errors"): a percent sign, flags, a
    width and a precision are taken for a verb, with the character after them.
    Widths and precisions that are arguments (stars), indexes (brackets) and
    characters that are not ASCII are left out here. *)
Definition flag_char (c : ascii) : bool := existsb (Ascii.eqb c) (B"#0+- ").
Definition options (f w p : bytes) : Prop :=
  Forall (fun c => flag_char c = true) f /\ Forall (fun c => is_digit c = true) w /\
  (p = [] \/ exists q, p = B"." ++ q /\ Forall (fun c => is_digit c = true) q).
(** A character that the options do not go on with. *)
Definition ends_options (w p : bytes) (v : ascii) : Prop :=
  is_digit v = false /\ (p = [] -> v <> "."%char) /\ (w = [] -> p = [] -> flag_char v = false).
Inductive garbled : bytes -> bytes -> Prop :=
| g_nil : garbled [] []
| g_char c s s' : c <> "%"%char -> garbled s s' -> garbled (c :: s) (c :: s')
| g_noverb f w p : options f w p -> garbled (B"%" ++ f ++ w ++ p) (B"%!(NOVERB)")
| g_percent f w p s s' : options f w p -> garbled s s' -> garbled (B"%" ++ f ++ w ++ p ++ B"%" ++ s) (B"%" ++ s')
| g_verb f w p v s s' : options f w p -> ends_options w p v -> v <> "%"%char -> garbled s s' ->
    garbled (B"%" ++ f ++ w ++ p ++ [v] ++ s) (B"%!" ++ [v] ++ B"(MISSING)" ++ s').
