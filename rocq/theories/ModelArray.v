(** Model of the parts of internal/pqarray/pqarray.go that dump uses: arrays of booleans,
    integers and strings.  A position in the text is the rest of the text; the delimiter is
    the comma, the only one in use. *)
From Verif Require Import GoStr ModelSq ModelDdl ModelCache ModelCsv.

Definition lbrace : ascii := "{"%char.
Definition rbrace : ascii := "}"%char.
Definition backslash : ascii := "\"%char.

(** An element in quotes, pqarray.go:822-840: the element and what follows it, if it ends. *)
Fixpoint quoted (escape : bool) (elem s : bytes) : option (bytes * bytes) :=
  match s with
  | [] => None
  | c :: s' =>
      if escape then quoted false (elem ++ [c]) s'
      else if ceqb c backslash then quoted true elem s'
      else if ceqb c dquote then Some (elem, s')
      else quoted false (elem ++ [c]) s'
  end.
(** An element without quotes, pqarray.go:841-855. *)
Fixpoint unquoted (elem s : bytes) : option (bytes * bytes) :=
  match s with
  | [] => None
  | c :: s' => if ceqb c comma || ceqb c rbrace then Some (elem, s) else unquoted (elem ++ [c]) s'
  end.

(** An assignment to dims[depth-1]; an index out of range panics. *)
Definition set_dim (depth : nat) (f : nat -> nat) (dims : list nat) : result (list nat) :=
  match depth with
  | O => Panic
  | S i => match nth_error dims i with Some n => Ok (set_nth i (f n) dims) | None => Panic end
  end.

(** The last loop, pqarray.go:872-882. *)
Fixpoint closing (depth : nat) (s : bytes) : result unit :=
  match s with
  | [] => match depth with O => Ok tt | S _ => Err end
  | c :: s' => match depth with S n => if ceqb c rbrace then closing n s' else Err | O => Err end
  end.

(** The labels of the two loops at pqarray.go:812-870: [true] stands for Element. *)
Fixpoint elements (fuel : nat) (at_element : bool) (depth : nat) (dims : list nat) (elems : list (option bytes)) (s : bytes)
  : result (list nat * list (option bytes)) :=
  match fuel with
  | O => Panic
  | S fuel =>
      match s with
      | [] => bindr (closing depth []) (fun _ => Ok (dims, elems))
      | c :: s' =>
          if at_element then
            if ceqb c lbrace then
              if depth =? List.length dims then elements fuel false depth dims elems s
              else bindr (set_dim (S depth) (fun _ => 0) dims) (fun dims => elements fuel true (S depth) dims elems s')
            else if ceqb c dquote then
              match quoted false [] s' with
              | Some (e, rest) => elements fuel false depth dims (elems ++ [Some e]) rest
              | None => elements fuel false depth dims elems []
              end
            else
              match unquoted [] s with
              | Some ([], _) => Err
              | Some (e, rest) =>
                  elements fuel false depth dims (elems ++ [if beqb e (B"NULL") then None else Some e]) rest
              | None => elements fuel false depth dims elems []
              end
          else if ceqb c comma && negb (depth =? 0) then
            bindr (set_dim depth S dims) (fun dims => elements fuel true depth dims elems s')
          else if ceqb c rbrace && negb (depth =? 0) then
            bindr (set_dim depth S dims) (fun dims => elements fuel false (depth - 1) dims elems s')
          else Err
      end
  end.

(** The first loop, pqarray.go:797-809: the number of braces, and the rest. *)
Fixpoint opening (depth : nat) (s : bytes) : nat * bytes :=
  match s with
  | c :: s' => if ceqb c lbrace then opening (S depth) s' else (depth, s)
  | [] => (depth, s)
  end.

(** The check of the dimensions, pqarray.go:883-891; a division by zero panics. *)
Fixpoint check_dims (n : nat) (dims : list nat) : result unit :=
  match dims with
  | [] => Ok tt
  | O :: _ => Panic
  | d :: dims' => bindr (check_dims n dims') (fun _ => if Nat.modulo n d =? 0 then Ok tt else Err)
  end.

(** parseArray, pqarray.go:790-893. *)
Definition parse_array (s : bytes) : result (list nat * list (option bytes)) :=
  match s with
  | c :: _ =>
      if ceqb c lbrace then
        let '(depth, rest) := opening 0 s in
        match rest with
        | r :: _ =>
            if ceqb r rbrace then bindr (closing depth rest) (fun _ => Ok ([], []))
            else bindr (elements (2 * List.length s + 2) true depth (repeat 0 depth) [] rest) (fun '(dims, elems) =>
                 bindr (check_dims (List.length elems) dims) (fun _ => Ok (dims, elems)))
        | [] => Err
        end
      else Err
  | [] => Err
  end.
(** scanLinearArray, pqarray.go:895-904. *)
Definition scan_linear (s : bytes) : result (list (option bytes)) :=
  bindr (parse_array s) (fun '(dims, elems) => if List.length dims <=? 1 then Ok elems else Err).

Fixpoint each {A C} (f : A -> result C) (l : list A) : result (list C) :=
  match l with
  | [] => Ok []
  | a :: l' => bindr (f a) (fun c => bindr (each f l') (fun cs => Ok (c :: cs)))
  end.
(** BoolArray.scanBytes, pqarray.go:102-127. *)
Definition scan_bool (v : option bytes) : result bool :=
  match v with
  | Some [c] => if ceqb c "t"%char then Ok true else if ceqb c "f"%char then Ok false else Err
  | _ => Err
  end.
(** strconv.ParseInt(s, 10, 64). *)
Definition parse_int (s : bytes) : result Z :=
  let '(neg, digits) :=
    match s with
    | c :: s' => if ceqb c "-"%char then (true, s') else if ceqb c "+"%char then (false, s') else (false, s)
    | [] => (false, [])
    end in
  match dec_N digits with
  | Some n =>
      let z := if neg then (- Z.of_N n)%Z else Z.of_N n in
      if ((- 2 ^ 63 <=? z) && (z <? 2 ^ 63))%Z then Ok z else Err
  | None => Err
  end.
(** Int64Array.scanBytes, pqarray.go:528-545: the text of a missing element is empty. *)
Definition scan_int (v : option bytes) : result Z := parse_int (match v with Some s => s | None => [] end).
(** StringArray.scanBytes, pqarray.go:652-669. *)
Definition scan_string (v : option bytes) : result bytes := match v with Some s => Ok s | None => Err end.
(** Float64Array.scanBytes, pqarray.go:248-265; [flt] is strconv.ParseFloat followed by the
    text that json.Marshal gives for the number, if there is one. *)
Definition scan_float (flt : bytes -> option bytes) (v : option bytes) : result bytes :=
  match flt (match v with Some s => s | None => [] end) with Some t => Ok t | None => Err end.

(** The field of an array column when arrays are written as JSON, dump_cmd.go:870-886 and
    977-985.  [t] is the type of the column, one of those of [scan_kind] (ModelCsv.v). *)
Definition dump_array (flt : bytes -> option bytes) (t s : bytes) : result bytes :=
  bindr (scan_linear s) (fun elems =>
  bindr (if one_of t ["BOOLEAN[]"]%string then bindr (each scan_bool elems) (fun l => Ok (map EBool l))
         else if one_of t ["SMALLINT[]"; "INT[]"; "INTEGER[]"; "BIGINT[]"]%string then bindr (each scan_int elems) (fun l => Ok (map EInt l))
         else if one_of t ["NUMERIC[]"; "REAL[]"; "DOUBLE PRECISION[]"]%string
         then bindr (each (scan_float flt) elems) (fun l => Ok (map EFloat l))
         else bindr (each scan_string elems) (fun l => Ok (map EText l)))
    (fun l => Ok (json_array l))).

(** appendArrayQuotedBytes, pqarray.go:763-778. *)
Definition append_quoted (v : bytes) : bytes :=
  [dquote] ++ flat_map (fun c => if ceqb c dquote || ceqb c backslash then [backslash; c] else [c]) v ++ [dquote].
(** StringArray.Value, pqarray.go:672-693, for an array that is not nil. *)
Definition string_array_value (l : list bytes) : bytes := B"{" ++ join (B",") (map append_quoted l) ++ B"}".
(** Int64Array.Value, pqarray.go:548-570. *)
Definition int_array_value (l : list Z) : bytes := B"{" ++ join (B",") (map Z_dec l) ++ B"}".
(** BoolArray.Value, pqarray.go:130-155. *)
Definition bool_array_value (l : list bool) : bytes :=
  B"{" ++ join (B",") (map (fun b : bool => if b then B"t" else B"f") l) ++ B"}".
