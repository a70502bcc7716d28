(** Specification for C120: the time a text or a value of a driver shows, by the calendar of C113. *)
From Verif Require Import GoStr SpecStamp ModelTimeKey.

(** [shows s z n]: the text [s] is that of the instant [n] nanoseconds after second [z]. *)
Inductive shows : bytes -> Z -> Z -> Prop :=
| shows_seconds s z : time_text false s z -> ~ In "."%char s -> shows s z 0
| shows_fraction a f z k v : time_text false (a ++ "."%char :: f) z -> ~ In "."%char a -> writes k v f -> (k <= 9)%nat ->
    shows (a ++ "."%char :: f) z (v * 10 ^ Z.of_nat (9 - k)).
(** What the driver means. *)
Inductive meant : driven -> Z -> Z -> Prop :=
| meant_text s z n : shows s z n -> meant (DrText s) z n
| meant_time z n : (0 <= n < 1000000000)%Z -> meant (DrTime z n) z n.
(** A literal of SQL that names the instant. *)
Definition names (l : bytes) (z n : Z) : Prop := exists w, l = B"'" ++ w ++ B"'" /\ shows w z n.
(** The years 0 to 9999. *)
Definition in_years (z : Z) : Prop := (-62167219200 <= z < 253402300800)%Z.
(** What must hold of the literals of the keys found: none is missing, and each names its own instant. *)
Definition found (rows : list driven) (broke_off : bool) (lits : list bytes) : Prop :=
  broke_off = false /\ Forall2 (fun v l => forall z n, meant v z n -> in_years z -> names l z n) rows lits.
