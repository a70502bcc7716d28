(** What it means that modifiers survive printing and parsing. *)
From Verif Require Import GoStr ModelModifier.

(** Texts in which every brace has its partner. *)
Inductive balanced : bytes -> Prop :=
| bal_nil : balanced []
| bal_char x s : x <> "{"%char -> x <> "}"%char -> balanced s -> balanced (x :: s)
| bal_braces s t : balanced s -> balanced t -> balanced ("{"%char :: s ++ "}"%char :: t).

(** Names of modifiers: no blank, no brace, and none of the two separators. *)
Definition plain_name (n : bytes) : Prop :=
  n <> [] /\ forall x, In x n -> ~ In x (B" ={}:").

(** Values: balanced, and a value that begins with a brace contains a blank. *)
Definition plain_value (v : bytes) : Prop :=
  balanced v /\ (In SPACE v \/ forall s, v <> "{"%char :: s).

(** Modifiers that can be printed: either a raw value is given, or a value and
    submodifiers are. *)
Inductive printable : modifier -> Prop :=
| pr_raw n raw value subs : plain_name n -> raw <> [] -> plain_value raw ->
    printable (Mod [] n raw value subs)
| pr_value n value subs : plain_name n -> plain_value value -> Forall printable subs ->
    printable (Mod [] n [] value subs).

(** The value that a reader finds: a dot stands for a missing value before submodifiers. *)
Definition shown_value (value : bytes) (subs : list modifier) : bytes :=
  match value, subs with
  | [], _ :: _ => B"."
  | _, _ => value
  end.

(** [reads m m']: the parsed modifier [m'] has the name of [m] and either its raw value, or,
    once its own raw value is parsed, its value and its submodifiers, at every depth. *)
Inductive reads : modifier -> modifier -> Prop :=
| rd_raw n raw value subs : raw <> [] ->
    reads (Mod [] n raw value subs) (Mod [] n raw [] [])
| rd_value n value subs raw' subs' :
    parse_raw_value (Mod [] n raw' [] []) = Some (Ok (Mod [] n raw' (shown_value value subs) subs')) ->
    Forall2 reads subs subs' ->
    reads (Mod [] n [] value subs) (Mod [] n raw' [] []).

(** The first modifier is printed as more than one character. *)
Definition long_start (ms : list modifier) : Prop :=
  match ms with
  | Mod _ [_] [] [] [] :: _ :: _ => False
  | _ => True
  end.
