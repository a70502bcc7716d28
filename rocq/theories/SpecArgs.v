(** Independent specification of comma-separated argument lists. *)
From Verif Require Import GoStr.

(** Text between an opening bracket and its closing bracket: balanced in that kind
    of bracket and free of string quotes. *)
Inductive group (o c : ascii) : bytes -> Prop :=
| g_nil : group o c []
| g_char x s : x <> o -> x <> c -> x <> "'"%char -> group o c s -> group o c (x :: s)
| g_nest a b : group o c a -> group o c b -> group o c (o :: a ++ c :: b).

(** Contents of a string literal: quotes come in pairs. *)
Inductive strbody : bytes -> Prop :=
| sb_nil : strbody []
| sb_char c s : c <> "'"%char -> strbody s -> strbody (c :: s)
| sb_pair s : strbody s -> strbody ("'"%char :: "'"%char :: s).

(** One argument: no comma except inside string literals and brackets. *)
Inductive argument : bytes -> Prop :=
| a_nil : argument []
| a_char c s : c <> ","%char -> c <> "'"%char -> c <> "("%char -> c <> "["%char ->
    argument s -> argument (c :: s)
| a_string b s : strbody b -> argument s -> argument ("'"%char :: b ++ "'"%char :: s)
| a_paren g s : group "("%char ")"%char g -> argument s -> argument ("("%char :: g ++ ")"%char :: s)
| a_array g s : group "["%char "]"%char g -> argument s -> argument ("["%char :: g ++ "]"%char :: s).

(** The full grammar: brackets of both kinds and string literals nest freely. *)
Definition plain (c : ascii) : Prop :=
  c <> "'"%char /\ c <> "("%char /\ c <> ")"%char /\ c <> "["%char /\ c <> "]"%char.
Inductive nested : bytes -> Prop :=
| n_nil : nested []
| n_char c s : plain c -> nested s -> nested (c :: s)
| n_string b s : strbody b -> nested s -> nested ("'"%char :: b ++ "'"%char :: s)
| n_paren g s : nested g -> nested s -> nested ("("%char :: g ++ ")"%char :: s)
| n_array g s : nested g -> nested s -> nested ("["%char :: g ++ "]"%char :: s).
Inductive full_argument : bytes -> Prop :=
| f_nil : full_argument []
| f_char c s : plain c -> c <> ","%char -> full_argument s -> full_argument (c :: s)
| f_string b s : strbody b -> full_argument s -> full_argument ("'"%char :: b ++ "'"%char :: s)
| f_paren g s : nested g -> full_argument s -> full_argument ("("%char :: g ++ ")"%char :: s)
| f_array g s : nested g -> full_argument s -> full_argument ("["%char :: g ++ "]"%char :: s).
