(** Model of the texts of times: the option --timestamp-as-integer of load (load_cmd.go:329-339, 475-489), with
    time.ParseInLocation and Time.Unix, and the texts that dump writes for times (dump_cmd.go:971-976), with Time.UTC and
    Time.Format (packages time, Go 1.20).

    Simplified: numbers do not overflow; nanoseconds are left out, as Unix rounds down. *)
From Verif Require Import GoStr.

Notation "'let?' x := a 'in' b" := (match a with Some x => b | None => None end) (at level 200, x pattern, b at level 200).
(** ** Days *)
(** isLeap, time.go. *)
Definition is_leap (y : Z) : bool := ((y mod 4 =? 0) && (negb (y mod 100 =? 0) || (y mod 400 =? 0)))%Z.
(** daysBefore, time.go. *)
Definition days_before (m : Z) : Z :=
  nth (Z.to_nat m) [0; 31; 59; 90; 120; 151; 181; 212; 243; 273; 304; 334; 365]%Z 0%Z.
(** daysIn, time.go. *)
Definition days_in (m y : Z) : Z :=
  if ((m =? 2) && is_leap y)%Z then 29%Z else (days_before m - days_before (m - 1))%Z.
(** daysSinceEpoch, time.go; the first day of the year 1 is 0. *)
Definition days_since (year : Z) : Z :=
  let y := (year - 1)%Z in
  (146097 * (y / 400) + 36524 * (y mod 400 / 100) + 1461 * (y mod 400 mod 100 / 4) + 365 * (y mod 400 mod 100 mod 4))%Z.
(** Date, time.go: the number of the day. *)
Definition date_days (y m d : Z) : Z :=
  (days_since y + days_before (m - 1) + (if is_leap y && (3 <=? m) then 1 else 0) + (d - 1))%Z.
Definition unix_days : Z := 719162%Z.
(** absDate, time.go: year, month, day. *)
Definition month_day (leap : bool) (yday : Z) : Z * Z :=
  let rest (day : Z) :=
    let month := (day / 31)%Z in
    let next := days_before (month + 1) in
    if (next <=? day)%Z then (month + 2, day - next + 1)%Z else (month + 1, day - days_before month + 1)%Z in
  if leap then
    if (59 <? yday)%Z then rest (yday - 1)%Z else if (yday =? 59)%Z then (2, 29)%Z else rest yday
  else rest yday.
Definition abs_date (days : Z) : Z * Z * Z :=
  let n400 := (days / 146097)%Z in let d := (days - 146097 * n400)%Z in
  let a := (d / 36524)%Z in let n100 := (a - a / 4)%Z in let d := (d - 36524 * n100)%Z in
  let n4 := (d / 1461)%Z in let d := (d - 1461 * n4)%Z in
  let b := (d / 365)%Z in let n1 := (b - b / 4)%Z in let d := (d - 365 * n1)%Z in
  let y := (400 * n400 + 100 * n100 + 4 * n4 + n1 + 1)%Z in
  let (m, day) := month_day (is_leap y) d in (y, m, day).

(** ** Writing *)
Definition figure (z : Z) : ascii := ascii_of_N (48 + Z.to_N (z mod 10)).
Definition pad2 (z : Z) : bytes := [figure (z / 10); figure z].
Definition pad4 (z : Z) : bytes := [figure (z / 1000); figure (z / 100); figure (z / 10); figure z].
(** Time.Format("2006-01-02 15:04:05") in UTC, for years from 0 to 9999. *)
Definition format_time (unix : Z) : bytes :=
  let '(y, m, d) := abs_date (unix / 86400 + unix_days) in
  let s := (unix mod 86400)%Z in
  pad4 y ++ B"-" ++ pad2 m ++ B"-" ++ pad2 d ++ B" " ++ pad2 (s / 3600) ++ B":" ++ pad2 (s mod 3600 / 60) ++ B":" ++ pad2 (s mod 60).

(** ** Reading *)
(** The parts of a layout: nextStdChunk, format.go. *)
Inductive chunk := Lit (c : ascii) | Year | Month | Day | Hour | Minute | Second | Fraction | Zone.
Definition date_chunks : list chunk := [Year; Lit "-"; Month; Lit "-"; Day].
Definition time_chunks : list chunk := [Hour; Lit ":"; Minute; Lit ":"; Second].
(** load_cmd.go:329-339. *)
Definition stamp_formats : list (list chunk) := [
  date_chunks ++ Lit " " :: time_chunks ++ [Fraction; Zone];
  date_chunks ++ Lit "T" :: time_chunks ++ [Fraction; Zone];
  date_chunks ++ Lit " " :: time_chunks ++ [Fraction];
  date_chunks ++ Lit "T" :: time_chunks ++ [Fraction];
  date_chunks ++ Lit " " :: time_chunks;
  date_chunks ++ Lit "T" :: time_chunks;
  date_chunks ++ Lit " " :: [Hour; Lit ":"; Minute];
  date_chunks ++ Lit "T" :: [Hour; Lit ":"; Minute];
  date_chunks ].
Definition digit_of (c : ascii) : option Z :=
  let n := N_of_ascii c in if ((48 <=? n) && (n <=? 57))%N then Some (Z.of_N n - 48)%Z else None.
(** getnum, format.go. *)
Definition getnum (s : bytes) (fixed : bool) : option (Z * bytes) :=
  match s with
  | [] => None
  | a :: r =>
      let? x := digit_of a in
      match r with
      | b :: r' => match digit_of b with Some y => Some (10 * x + y, r')%Z | None => if fixed then None else Some (x, r) end
      | [] => if fixed then None else Some (x, r)
      end
  end.
(** stdLongYear, format.go. *)
Definition getyear (s : bytes) : option (Z * bytes) :=
  match s with
  | a :: b :: c :: d :: r =>
      let? x := digit_of a in let? y := digit_of b in let? z := digit_of c in let? w := digit_of d in
      Some (1000 * x + 100 * y + 10 * z + w, r)%Z
  | _ => None
  end.
(** skip and cutspace, format.go. *)
Fixpoint cut_space (s : bytes) : bytes := match s with c :: r => if ceqb c " " then cut_space r else s | [] => [] end.
Definition skip (c : ascii) (s : bytes) : option bytes :=
  match s with
  | [] => if ceqb c " " then Some [] else None
  | x :: r => if ceqb c x then Some (if ceqb c " " then cut_space r else r) else None
  end.
(** A fraction of a second, any number of digits: stdFracSecond9 and the special case of stdZeroSecond, format.go. *)
Fixpoint drop_digits (s : bytes) : bytes := match s with c :: r => match digit_of c with Some _ => drop_digits r | None => s end | [] => [] end.
Definition drop_fraction (s : bytes) : bytes :=
  match s with
  | c :: x :: r => if ceqb c "." || ceqb c "," then match digit_of x with Some _ => drop_digits r | None => s end else s
  | _ => s
  end.
(** stdNumColonTZ, format.go. *)
Definition getzone (s : bytes) : option (Z * bytes) :=
  match s with
  | sign :: a :: b :: colon :: c :: d :: r =>
      if ceqb colon ":" then
        let? (h, _) := getnum [a; b] true in let? (m, _) := getnum [c; d] true in
        if ((24 <? h) || (60 <? m))%Z then None
        else if ceqb sign "+" then Some ((h * 60 + m) * 60, r)%Z
        else if ceqb sign "-" then Some (- ((h * 60 + m) * 60), r)%Z else None
      else None
  | _ => None
  end.
Record stamp := Stamp { st_year : Z; st_month : Z; st_day : Z; st_hour : Z; st_minute : Z; st_second : Z; st_zone : Z }.
Fixpoint next_fraction (l : list chunk) : bool := match l with Lit _ :: l' => next_fraction l' | Fraction :: _ => true | _ => false end.
(** parse, format.go. *)
Fixpoint parse (l : list chunk) (s : bytes) (t : stamp) : option stamp :=
  match l with
  | [] => match s with [] => if ((1 <=? st_day t) && (st_day t <=? days_in (st_month t) (st_year t)))%Z then Some t else None | _ => None end
  | Lit c :: l' => let? r := skip c s in parse l' r t
  | Year :: l' => let? (n, r) := getyear s in parse l' r (Stamp n (st_month t) (st_day t) (st_hour t) (st_minute t) (st_second t) (st_zone t))
  | Month :: l' =>
      let? (n, r) := getnum s true in
      if ((n <=? 0) || (12 <? n))%Z then None
      else parse l' r (Stamp (st_year t) n (st_day t) (st_hour t) (st_minute t) (st_second t) (st_zone t))
  | Day :: l' =>
      let? (n, r) := getnum s true in
      parse l' r (Stamp (st_year t) (st_month t) n (st_hour t) (st_minute t) (st_second t) (st_zone t))
  | Hour :: l' =>
      let? (n, r) := getnum s false in
      if (24 <=? n)%Z then None else parse l' r (Stamp (st_year t) (st_month t) (st_day t) n (st_minute t) (st_second t) (st_zone t))
  | Minute :: l' =>
      let? (n, r) := getnum s true in
      if (60 <=? n)%Z then None else parse l' r (Stamp (st_year t) (st_month t) (st_day t) (st_hour t) n (st_second t) (st_zone t))
  | Second :: l' =>
      let? (n, r) := getnum s true in
      if (60 <=? n)%Z then None
      else parse l' (if next_fraction l' then r else drop_fraction r) (Stamp (st_year t) (st_month t) (st_day t) (st_hour t) (st_minute t) n (st_zone t))
  | Fraction :: l' => parse l' (drop_fraction s) t
  | Zone :: l' =>
      let? (n, r) := getzone s in
      parse l' r (Stamp (st_year t) (st_month t) (st_day t) (st_hour t) (st_minute t) (st_second t) n)
  end.
(** Date and Time.Unix, time.go. *)
Definition unix_of (t : stamp) : Z :=
  ((date_days (st_year t) (st_month t) (st_day t) - unix_days) * 86400 + st_hour t * 3600 + st_minute t * 60 + st_second t - st_zone t)%Z.
(** load_cmd.go:477-488: the first format that fits. *)
Definition no_time : stamp := Stamp 0 1 1 0 0 0 0.
Fixpoint try_formats (l : list (list chunk)) (s : bytes) : option Z :=
  match l with
  | [] => None
  | f :: l' => match parse f s no_time with Some t => Some (unix_of t) | None => try_formats l' s end
  end.
Definition stamp_text (s : bytes) : option Z := try_formats stamp_formats s.
