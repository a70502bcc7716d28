(** What is expected of temporary session settings. *)
From Verif Require Import GoStr ModelSq ModelDdl ModelHistory ModelMigrate ModelSession.

(** The calls made between two states. *)
Definition calls (w w' : world) (l : list sevent) : Prop := w_log w' = l ++ w_log w.
(** The value is [old] again, or setting it to [old] failed. *)
Definition restored (old : bytes) (w w' : world) : Prop :=
  w_var w' = old \/ exists l, calls w w' l /\ In (SSet old false) l.
(** What runs in between leaves no transaction open and none closed; it makes no calls of its
    own that concern the setting, except that scripts may set the variable to something. *)
Definition tidy (b : body) : Prop :=
  forall w, w_tx (snd (b w)) = w_tx w /\ w_log (snd (b w)) = w_log w /\ (w_tx w = None -> w_dead (snd (b w)) = w_dead w).
Definition leaves_alone (b : body) : Prop := forall w, w_var (snd (b w)) = w_var w.
(** A connection outside of any transaction. *)
Definition fresh (w : world) : Prop := w_tx w = None /\ w_dead w = false.

(** ** Statements *)
(** The value that a statement of the form SET name = value assigns: an integer, a word, or a
    string in single quotes. *)
Definition is_word_start (c : ascii) : bool :=
  let n := cn c in ((65 <=? n) && (n <=? 90)) || ((97 <=? n) && (n <=? 122)) || ceqb c underscore.
Fixpoint read_string (s : bytes) : option bytes :=
  match s with
  | [] => None
  | c :: s' =>
      if ceqb c squote then
        match s' with
        | [] => Some []
        | q :: s'' => if ceqb q squote then match read_string s'' with Some r => Some (squote :: r) | None => None end else None
        end
      else match read_string s' with Some r => Some (c :: r) | None => None end
  end.
Definition digits_only (s : bytes) : bool := match s with [] => false | _ => forallb is_digit s end.
Definition read_value (s : bytes) : option bytes :=
  match s with
  | [] => None
  | c :: s' =>
      if ceqb c squote then read_string s'
      else if ceqb c "-"%char then (if digits_only s' then Some s else None)
      else if is_digit c then (if digits_only s then Some s else None)
      else if is_word_start c && forallb (fun x => is_word_start x || is_digit x) s' then Some s
      else None
  end.
(** [text] assigns [v] when it is [prefix] followed by a value that reads as [v]. *)
Definition assigns (prefix text v : bytes) : Prop := exists r, text = prefix ++ r /\ read_value r = Some v.
(** What SHOW lock_timeout reports: 0, or a number with its unit. *)
Definition reported_timeout (s : bytes) : Prop :=
  s = B"0" \/ exists n u, digits_only n = true /\ In u [B"ms"; B"s"; B"min"; B"h"; B"d"] /\ s = n ++ u.
(** What the other variables report: an integer. *)
Definition reported_integer (s : bytes) : Prop := exists z, s = Z_dec z.
