(** Specification for C113: the calendar, counted day by day, and the texts of times. *)
From Verif Require Import GoStr.

(** ** The calendar *)
Record date := Date { dt_year : Z; dt_month : Z; dt_day : Z }.
Definition leap_year (y : Z) : Prop := ((4 | y) /\ (~ (100 | y) \/ (400 | y)))%Z.
(** How many days a month has. *)
Inductive month_days : Z -> Z -> Z -> Prop :=
| md_long y m : In m [1; 3; 5; 7; 8; 10; 12]%Z -> month_days y m 31
| md_short y m : In m [4; 6; 9; 11]%Z -> month_days y m 30
| md_leap y : leap_year y -> month_days y 2 29
| md_plain y : ~ leap_year y -> month_days y 2 28.
Definition valid_date (x : date) : Prop := exists n, month_days (dt_year x) (dt_month x) n /\ (1 <= dt_day x <= n)%Z.
Inductive next_day : date -> date -> Prop :=
| nd_day y m d : valid_date (Date y m (d + 1)) -> (1 <= d)%Z -> next_day (Date y m d) (Date y m (d + 1))
| nd_month y m d : month_days y m d -> (m < 12)%Z -> next_day (Date y m d) (Date y (m + 1) 1)
| nd_year y : next_day (Date y 12 31) (Date (y + 1) 1 1).
(** The number of days since the first of January 1970. *)
Inductive day_number : date -> Z -> Prop :=
| dn_epoch : day_number (Date 1970 1 1) 0
| dn_next x x' n : day_number x n -> next_day x x' -> day_number x' (n + 1)
| dn_previous x x' n : day_number x' n -> next_day x x' -> day_number x (n - 1).

(** ** Numbers with leading zeros *)
(** [writes k n s]: [s] are the last [k] digits of [n], written out. *)
Definition figures : list ascii := ["0"; "1"; "2"; "3"; "4"; "5"; "6"; "7"; "8"; "9"]%char.
Inductive writes : nat -> Z -> bytes -> Prop :=
| writes_none : writes 0 0 []
| writes_figure k n s i c : writes k n s -> nth_error figures i = Some c -> writes (S k) (10 * n + Z.of_nat i) (s ++ [c]).

(** ** Times *)
(** yyyy-mm-dd *)
Inductive date_text : bytes -> date -> Prop :=
| date_text_of y m d a b c : writes 4 y a -> writes 2 m b -> writes 2 d c -> valid_date (Date y m d) -> date_text (a ++ B"-" ++ b ++ B"-" ++ c) (Date y m d).
(** hh:mm, in seconds; [loose]: the hour may have one digit *)
Inductive clock_text (loose : bool) : bytes -> Z -> Prop :=
| clock_text_of k h m a b : writes k h a -> (k = 2 \/ loose = true /\ k = 1)%nat -> (h < 24)%Z -> writes 2 m b -> (m < 60)%Z -> clock_text loose (a ++ B":" ++ b) (h * 3600 + m * 60).
(** .123 *)
Inductive fraction_text (loose : bool) : bytes -> Prop :=
| fraction_none : fraction_text loose []
| fraction_some p c s : p = "."%char \/ loose = true /\ p = ","%char -> In c figures -> (forall x, In x s -> In x figures) -> fraction_text loose (p :: c :: s).
(** +hh:mm, in seconds *)
Inductive zone_text (loose : bool) : bytes -> Z -> Prop :=
| zone_text_of (east : bool) h m a b : writes 2 h a -> writes 2 m b ->
    (if loose then h <= 24 /\ m <= 60 else h < 24 /\ m < 60)%Z ->
    zone_text loose ((if east then "+"%char else "-"%char) :: a ++ B":" ++ b) (if east then h * 3600 + m * 60 else - (h * 3600 + m * 60))%Z.
(** Between date and time. *)
Inductive between (loose : bool) : bytes -> Prop :=
| between_T : between loose (B"T")
| between_space n : n = 0%nat \/ loose = true -> between loose (repeat " "%char (S n)).
(** [time_text loose s z]: [s] is one of the documented texts (comment of --timestamp-as-integer and load_cmd.go:329-339) for the
    second that begins [z] seconds after the beginning of 1970 in UTC.  [loose]: what Go accepts besides. *)
Inductive time_text (loose : bool) : bytes -> Z -> Prop :=
| tt_date s x n : date_text s x -> day_number x n -> time_text loose s (n * 86400)
| tt_minutes s x n b c t : date_text s x -> day_number x n -> between loose b -> clock_text loose c t -> time_text loose (s ++ b ++ c) (n * 86400 + t)
| tt_seconds s x n b c t w k f : date_text s x -> day_number x n -> between loose b -> clock_text loose c t -> writes 2 k w -> (k < 60)%Z -> fraction_text loose f ->
    time_text loose (s ++ b ++ c ++ B":" ++ w ++ f) (n * 86400 + t + k)
| tt_zone s x n b c t w k f u o : date_text s x -> day_number x n -> between loose b -> clock_text loose c t -> writes 2 k w -> (k < 60)%Z -> fraction_text loose f ->
    zone_text loose u o -> time_text loose (s ++ b ++ c ++ B":" ++ w ++ f ++ u) (n * 86400 + t + k - o).

(** The time strings of SQLite that have a date (www.sqlite.org/lang_datefunc.html, time values 1 to 7): a time zone may also
    follow the minutes, and there may be a space before it. *)
Inductive sqlite_text : bytes -> Z -> Prop :=
| sq_documented s z : time_text false s z -> sqlite_text s z
| sq_minutes_zone s x n b c t sp u o : date_text s x -> day_number x n -> between false b -> clock_text false c t -> (sp = [] \/ sp = B" ") ->
    zone_text false u o -> sqlite_text (s ++ b ++ c ++ sp ++ u) (n * 86400 + t - o)
| sq_zone s x n b c t w k f u o : date_text s x -> day_number x n -> between false b -> clock_text false c t -> writes 2 k w -> (k < 60)%Z -> fraction_text false f ->
    zone_text false u o -> sqlite_text (s ++ b ++ c ++ B":" ++ w ++ f ++ B" " ++ u) (n * 86400 + t + k - o).
