(** Model of what the drivers make of the error of a migration:
    AnnotateError of drivers/ddlpostgres/ddlpostgres.go:38-63 and
    drivers/ddlsqlserver/ddlsqlserver.go:43-56, called by
    ddl/migrate_cmd.go:513-515 with the text of the migration.

    [fmt.Errorf] is Go's standard library.  Of it only formats with one
    argument are modelled: flags, widths and precisions given as digits, and
    verbs of one ASCII character other than the star and the opening bracket;
    [Unknown] stands for what the others would show. *)
From Verif Require Import GoStr ModelVersion.

(** What the user gets to see: a text, a stack trace, or something that is not modelled. *)
Inductive shown := Text (s : bytes) | Crash | Unknown.

Definition percent : ascii := "%"%char.
(** doPrintf of fmt: the flags, the digits of a width and of a precision. *)
Definition is_flag (c : ascii) : bool := ceqb c "#" || ceqb c "0" || ceqb c "+" || ceqb c "-" || ceqb c " ".
Fixpoint skip (p : ascii -> bool) (s : bytes) : bytes :=
  match s with c :: t => if p c then skip p t else s | [] => [] end.
Definition skip_options (s : bytes) : bytes :=
  let t := skip is_digit (skip is_flag s) in
  match t with c :: u => if ceqb c "." then skip is_digit u else t | [] => [] end.
(** doPrintf of fmt with the argument [arg], a value whose text it is, or
    with no argument left ([None]).  [fuel] is the length of the format. *)
Fixpoint printf (fuel : nat) (f : bytes) (arg : option bytes) : option bytes :=
  match fuel, f with
  | _, [] => match arg with None => Some [] | Some _ => None end
  | 0, _ => None
  | S fuel', c :: f' =>
      if ceqb c percent then
        match skip_options f' with
        | [] => match arg with None => Some (B"%!(NOVERB)") | Some _ => None end
        | v :: f2 =>
            if ceqb v percent then option_map (cons percent) (printf fuel' f2 arg)
            else if ceqb v "*" || ceqb v "[" || (128 <=? cn v) then None
            else match arg with
                 | None => option_map (fun r => B"%!" ++ [v] ++ B"(MISSING)" ++ r) (printf fuel' f2 None)
                 | Some a => if ceqb v "w" && beqb (v :: f2) f' then option_map (app a) (printf fuel' f2 None) else None
                 end
        end
      else option_map (cons c) (printf fuel' f' arg)
  end.
Definition errorf (f arg : bytes) : shown :=
  match printf (List.length f) f (Some arg) with Some s => Text s | None => Unknown end.

(** strings.Count(s, "\n"), strconv.Itoa. *)
Definition count_lf (s : bytes) : nat := count_occ ascii_dec s LF.
Definition itoa (z : Z) : bytes := if (z <? 0)%Z then B"-" ++ N_dec (Z.to_N (- z)) else N_dec (Z.to_N z).
(** s[:n]: a panic when n is negative or beyond the end. *)
Definition slice_to (s : bytes) (n : Z) : option bytes :=
  if (n <? 0)%Z || (Z.of_nat (List.length s) <? n)%Z then None else Some (firstn (Z.to_nat n) s).

(** pq.Error, the fields that are used, and the text of the error. *)
Record pqerr := { pq_text : bytes; pq_position : bytes; pq_detail : bytes; pq_hint : bytes }.
Definition section (label s : bytes) : bytes := match s with [] => [] | _ => label ++ s end.
(** ddlpostgres.go:44-61. *)
Definition annotate_pq (e : pqerr) (query : bytes) : shown :=
  match parse_int (pq_position e) with
  | None =>
      match pq_detail e, pq_hint e with
      | [], [] => Text (pq_text e)
      | _, _ => errorf (B"%w" ++ section (LF :: B"detail: ") (pq_detail e) ++ section (LF :: B"hint: ") (pq_hint e)) (pq_text e)
      end
  | Some pos =>
      match slice_to query pos with
      | None => Crash
      | Some before =>
          errorf (B"line " ++ itoa (Z.of_nat (count_lf before + 1)) ++ B": " ++ B"%w" ++
                  section (LF :: B"detail: ") (pq_detail e) ++ section (LF :: B"hint: ") (pq_hint e)) (pq_text e)
      end
  end.

(** mssql.Error: the text, the line, and the messages of All. *)
Record mserr := { ms_text : bytes; ms_line : Z; ms_all : list bytes }.
(** ddlsqlserver.go:48-55. *)
Definition annotate_ms (e : mserr) : shown :=
  errorf (B"line " ++ itoa (ms_line e) ++ B": %w" ++
          (if 1 <? List.length (ms_all e) then flat_map (fun m => LF :: m) (ms_all e) else [])) (ms_text e).

(** The error of a migration: one of lib/pq, one of go-mssqldb, or another
    (errors.As fails): migrate_cmd.go:506-515. *)
Inductive dberr := PqErr (e : pqerr) | MsErr (e : mserr) | OtherErr (text : bytes).
Definition annotate (d : dialect) (e : dberr) (query : bytes) : shown :=
  match d, e with
  | Postgres, PqErr e => annotate_pq e query
  | SQLServer, MsErr e => annotate_ms e
  | _, PqErr e => Text (pq_text e)
  | _, MsErr e => Text (ms_text e)
  | _, OtherErr t => Text t
  end.
