(** Model of how a subset query reads its keys (subsetter.go:198-309), for keys that are times: Timestamp.Scan
    (sq.go:287-344), and the literals.

    Simplified: keys have one column; times are given by their second and nanoseconds, and lie in the years 0 to 9999 when
    they are written (format_time). *)
From Verif Require Import GoStr ModelDdl ModelCsv ModelStamp ModelSubset ModelSubsetText.

(** What a driver delivers. *)
Inductive driven :=
| DrNull
| DrInt (z : Z)
| DrText (s : bytes)                    (* string or []byte *)
| DrTime (second : Z) (ns : Z)          (* time.Time *)
| DrOther.

(** The nanoseconds of a text that was parsed: parseNanoseconds, format.go.  Only a fraction has a point or a comma. *)
Fixpoint after_point (s : bytes) : option bytes :=
  match s with [] => None | c :: r => if ceqb c "." || ceqb c "," then Some r else after_point r end.
Fixpoint fraction (k : nat) (s : bytes) : Z :=
  match k, s with
  | S k', c :: r => match digit_of c with Some x => (x * 10 ^ Z.of_nat k' + fraction k' r)%Z | None => 0%Z end
  | _, _ => 0%Z
  end.
Definition nanos (s : bytes) : Z := match after_point s with Some r => fraction 9 r | None => 0%Z end.
(** Numbers of type int64 wrap around. *)
Definition wrap64 (z : Z) : Z := ((z + 2 ^ 63) mod 2 ^ 64 - 2 ^ 63)%Z.
(** Timestamp.Scan, sq.go:287-344; [None] for an invalid Timestamp. *)
Definition scan_time (v : driven) : result (option (Z * Z)) :=
  match v with
  | DrNull => Ok None                                                    (* 288-291 *)
  | DrInt z =>                                                           (* 295-305 *)
      if ((10 ^ 12 <? z) || (z <? - 10 ^ 12))%Z then
        let ns := wrap64 (z * 1000000) in Ok (Some (ns / 1000000000, ns mod 1000000000)%Z)
      else Ok (Some (z, 0%Z))
  | DrText s =>                                                          (* 306-335 *)
      match s with
      | [] => Ok None
      | _ => match stamp_text (trim_suffix s (B"Z")) with
             | Some z => Ok (Some (z, nanos (trim_suffix s (B"Z"))))
             | None => Err
             end
      end
  | DrTime second ns => Ok (Some (second, ns))                           (* 336-343 *)
  | DrOther => Err
  end.
(** subsetter.go:205-208 and 291-300. *)
Definition time_key (d : dialect) (ty : bytes) (v : driven) : result bytes :=
  bindr (scan_time v) (fun t =>
    Ok (key_literal (fun _ => false) d ty (STime (match t with Some (second, ns) => Some (format_time second, Z.to_N ns) | None => None end)))).
(** subsetter.go:198-306: the rows as far as they were delivered.  A query that breaks off ends the loop like the last
    row (rows.Err is not asked). *)
Definition read_keys (d : dialect) (ty : bytes) (rows : list driven) (broke_off : bool) : result (list bytes) :=
  mapr (time_key d ty) rows.
