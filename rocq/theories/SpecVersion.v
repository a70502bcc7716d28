(** The versions that servers report: sqlite_version(), server_version of Postgres, version() of MySQL and
    MariaDB, ProductVersion of SQL Server. *)
From Verif Require Import GoStr ModelCatalog.

(** Numbers with dots, and what follows them: a distribution or (Postgres) "beta1" etc. *)
Record release := Release { rl_nums : list N; rl_tail : bytes }.
Definition reported (r : release) : bytes := join (B".") (map N_dec (rl_nums r)) ++ rl_tail r.
Definition release_ok (d : dialect) (r : release) : Prop :=
  rl_nums r <> [] /\ Forall (fun n => (n < 2 ^ 63)%N) (rl_nums r)
  /\ match d with
     | Postgres => match rl_tail r with c :: _ => is_digit c = false /\ c <> "."%char | [] => True end
     | MySQL => match rl_tail r with c :: _ => c = "-"%char | [] => True end
     | SQLite | SQLServer => rl_tail r = []
     | Other => False
     end.
(** The versions whose numbers are read. *)
Definition clear_tail (d : dialect) (r : release) : Prop :=
  rl_tail r = [] \/ (d = Postgres /\ exists t, rl_tail r = B" " ++ t) \/ (d = MySQL /\ exists a b, rl_tail r = a ++ B"MariaDB" ++ b).
(** A number that is written: digits, or a sign and digits, within 64 bits. *)
Definition reads (w : bytes) (z : Z) : Prop :=
  exists sign digits n, w = sign ++ digits /\ dec_N digits = Some n /\ (- 2 ^ 63 <= z < 2 ^ 63)%Z /\
    ((sign = [] \/ sign = B"+") /\ z = Z.of_N n \/ sign = B"-" /\ z = (- Z.of_N n)%Z).
(** What may follow the numbers of a version that is read. *)
Definition may_follow (d : dialect) (v tail : bytes) : Prop :=
  tail = [] \/ (d = Postgres /\ exists t, tail = B" " ++ t) \/
  (d = MySQL /\ (exists t, tail = B"-" ++ t) /\ exists a b, v = a ++ B"MariaDB" ++ b).
