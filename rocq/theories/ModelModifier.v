(** Model of the modifiers in struct tags: ddl/modifier.go.  The loops of popValue and
    popModifier run over the runes of the text; the characters they look for are ASCII, so
    that running over the bytes gives the same positions. *)
From Verif Require Import GoStr.

(** Modifier, modifier.go:13-30. *)
Inductive modifier := Mod {
  m_dialects : list bytes;
  m_name : bytes;
  m_raw : bytes;
  m_value : bytes;
  m_subs : list modifier
}.

(** strings.TrimLeft(s, " ") *)
Fixpoint trim_blanks (s : bytes) : bytes :=
  match s with
  | [] => []
  | x :: s' => if ceqb x SPACE then trim_blanks s' else s
  end.

(** The loop of popValue, modifier.go:143-158: the text before and from the first blank
    outside of braces, and the brace level at that point.  [quoted] is isBraceQuoted. *)
Fixpoint scan_value (quoted : bool) (level : nat) (s : bytes) : bytes * bytes * nat :=
  match s with
  | [] => ([], [], level)
  | x :: s' =>
      if ceqb x SPACE && (level =? 0) then ([], s, level)
      else
        let level' :=
          if quoted then
            if ceqb x "{"%char then S level
            else if ceqb x "}"%char then pred level
            else level
          else level in
        let '(a, b, l) := scan_value quoted level' s' in (x :: a, b, l)
  end.

(** value[1 : len(value)-1], which panics when there are less than two bytes. *)
Definition inner (s : bytes) : result bytes :=
  match s with
  | _ :: x :: s' => Ok (removelast (x :: s'))
  | _ => Panic
  end.

(** popValue, modifier.go:135-171. *)
Definition pop_value (s : bytes) : result (bytes * bytes) :=
  match trim_blanks s with
  | [] => Ok ([], [])
  | x :: s' =>
      let quoted := ceqb x "{"%char in
      let '(value, remainder, level) := scan_value quoted 0 (x :: s') in
      if 0 <? level then Err
      else if quoted then bindr (inner value) (fun v => Ok (v, remainder))
      else Ok (value, remainder)
  end.

(** The loop of popModifier, modifier.go:181-190: the text before the first blank or
    equals sign, and the text from there on. *)
Fixpoint scan_name (s : bytes) : bytes * bytes :=
  match s with
  | [] => ([], [])
  | x :: s' =>
      if ceqb x SPACE || ceqb x "="%char then ([], s)
      else let '(a, b) := scan_name s' in (x :: a, b)
  end.

(** The dialects in front of a name, modifier.go:205-208. *)
Definition split_dialects (name : bytes) : list bytes * bytes :=
  match cut_byte ":"%char name with
  | Some (ds, n) => (split_byte ","%char ds, n)
  | None => ([], name)
  end.

(** popModifier, modifier.go:174-210. *)
Definition pop_modifier (s : bytes) : result (modifier * bytes) :=
  match trim_blanks s with
  | [] => Ok (Mod [] [] [] [] [], [])
  | s =>
      let '(name, rest) := scan_name s in
      let finish raw rest :=
        let '(ds, n) := split_dialects name in Ok (Mod ds n raw [] [], rest) in
      match rest with
      | x :: rest' =>
          if ceqb x "="%char then
            match rest' with
            | y :: _ =>
                if ceqb y SPACE then Ok (Mod [] name [] [] [], rest')
                else bindr (pop_value rest') (fun '(raw, rest'') => finish raw rest'')
            | [] => bindr (pop_value rest') (fun '(raw, rest'') => finish raw rest'')
            end
          else finish [] rest
      | [] => finish [] []
      end
  end.

(** NewModifiers, modifier.go:33-49.  [None]: the loop has not ended after [fuel] steps. *)
Fixpoint new_modifiers_loop (fuel : nat) (s : bytes) : option (result (list modifier)) :=
  match s with
  | [] => Some (Ok [])
  | _ =>
      match fuel with
      | O => None
      | S fuel' =>
          match pop_modifier s with
          | Ok (m, rest) =>
              match new_modifiers_loop fuel' rest with
              | Some (Ok ms) => Some (Ok (match m_name m with [] => ms | _ => m :: ms end))
              | r => r
              end
          | Err => Some Err
          | Panic => Some Panic
          end
      end
  end.
Definition new_modifiers (s : bytes) : option (result (list modifier)) :=
  new_modifiers_loop (List.length s) s.

(** ParseRawValue, modifier.go:78-90.  An error leaves the modifier half-filled; all
    callers give up on it. *)
Definition parse_raw_value (m : modifier) : option (result modifier) :=
  match m_raw m with
  | [] => Some (Ok m)
  | raw =>
      match pop_value raw with
      | Ok (value, rest) =>
          match new_modifiers rest with
          | Some (Ok subs) => Some (Ok (Mod (m_dialects m) (m_name m) (m_raw m) value subs))
          | Some Err => Some Err
          | Some Panic => Some Panic
          | None => None
          end
      | Err => Some Err
      | Panic => Some Panic
      end
  end.

(** strings.IndexByte(s, ' ') >= 0 *)
Definition has_blank (s : bytes) : bool := existsb (fun x => ceqb x SPACE) s.

(** writeBuf, modifier.go:93-131: the buffer [buf] after writing a modifier. *)
Fixpoint write_buf (buf : bytes) (m : modifier) : bytes :=
  match m with
  | Mod _ name raw value subs =>
      match name with
      | [] => buf
      | _ =>
          let last := List.length buf - 1 in
          let buf := if (0 <? last) && negb (ceqb (nth last buf SPACE) SPACE) then buf ++ B" " else buf in
          let buf := buf ++ name in
          match raw with
          | _ :: _ => if has_blank raw then buf ++ B"={" ++ raw ++ B"}" else buf ++ B"=" ++ raw
          | [] =>
              match value, subs with
              | [], [] => buf
              | _, _ =>
                  let buf := buf ++ B"=" in
                  let braces := has_blank value || match subs with [] => false | _ => true end in
                  let buf := if braces then buf ++ B"{" else buf in
                  let buf :=
                    match value with
                    | [] => buf ++ B"."
                    | _ => if has_blank value then buf ++ B"{" ++ value ++ B"}" else buf ++ value
                    end in
                  let buf :=
                    (fix go buf ms := match ms with [] => buf | m :: ms' => go (write_buf buf m) ms' end) buf subs in
                  if braces then buf ++ B"}" else buf
              end
          end
      end
  end.

(** Modifiers.String, modifier.go:52-60. *)
Definition modifiers_string (ms : list modifier) : bytes := fold_left write_buf ms [].

(** ExcludesDialect, modifier.go:64-74. *)
Definition excludes_dialect (m : modifier) (d : bytes) : bool :=
  match m_dialects m with
  | [] => false
  | ds => negb (bmem d ds)
  end.
