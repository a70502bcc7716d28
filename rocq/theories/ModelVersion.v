(** Model of DatabaseIntrospector.GetVersionNums, database_introspector.go:306-332. *)
From Verif Require Import GoStr ModelCatalog.

(** strconv.Atoi. *)
Definition all_digits (s : bytes) : bool := match s with [] => false | _ => forallb is_digit s end.
Definition parse_int (s : bytes) : option Z :=
  let '(neg, t) := match s with
                   | c :: t => if ceqb c "-" then (true, t) else if ceqb c "+" then (false, t) else (false, s)
                   | [] => (false, [])
                   end in
  if all_digits t then
    match dec_N t with
    | Some n =>
        let z := if neg then (- Z.of_N n)%Z else Z.of_N n in
        if (- 2 ^ 63 <=? z)%Z && (z <? 2 ^ 63)%Z then Some z else None
    | None => None
    end
  else None.
(** strings.Cut: what is before the separator. *)
Definition before (c : ascii) (s : bytes) : bytes := match cut_byte c s with Some (a, _) => a | None => s end.
(** database_introspector.go:312-321. *)
Definition version_text (d : dialect) (v : bytes) : bytes :=
  match d with
  | Postgres => before SPACE v
  | MySQL => if contains v (B"MariaDB") then before "-"%char v else v
  | _ => v
  end.
(** database_introspector.go:322-331. *)
Fixpoint parse_all (l : list bytes) : result (list Z) :=
  match l with
  | [] => Ok []
  | s :: l' => match parse_int s with Some z => bindr (parse_all l') (fun zs => Ok (z :: zs)) | None => Err end
  end.
Definition version_nums (d : dialect) (v : bytes) : result (list Z) := parse_all (split_byte "."%char (version_text d v)).
