(** Columns that fill themselves: what there is, how the databases show it in their system tables, and what the
    definition of a column says about it.  From the documentation of the databases; of the model of the code
    only the type of the rows is used. *)
From Verif Require Import GoStr SpecSql SpecInsert SpecTokens SpecDdl SpecDdlText SpecDefault ModelCatalog ModelFilling.

Inductive filling :=
| Nothing                                       (* an ordinary column *)
| Counter                                       (* AUTO_INCREMENT *)
| Numbered (always : bool) (start step : Z)     (* an identity *)
| Computed (e : bytes) (stored : bool)
| Stamped (digits : N).                         (* ON UPDATE CURRENT_TIMESTAMP(digits) *)
Inductive engine := MySQL5 | MySQL8 | Maria | Pg | Ms.
Definition spoken (e : engine) : dialect := match e with MySQL5 | MySQL8 | Maria => MySQL | Pg => Postgres | Ms => SQLServer end.
(** Identities of SQL Server only take numbers of their own; steps are not 0. *)
Definition possible (e : engine) (f : filling) : Prop :=
  match f with
  | Nothing => True
  | Counter | Stamped _ => spoken e = MySQL
  | Numbered always _ n => n <> 0%Z /\ (e = Pg \/ e = Ms /\ always = true)
  | Computed x _ => fits (spoken e) [] x
  end.

(** ** System tables *)
(** EXTRA of information_schema.columns.  [timed]: the default of the column is an expression, e.g. CURRENT_TIMESTAMP.
    [hidden]: the column is INVISIBLE. *)
Definition precision (n : N) : bytes := match n with 0%N => [] | _ => B"(" ++ N_dec n ++ B")" end.
Definition extra_word (e : engine) (f : filling) : list bytes :=
  match f with
  | Counter => [B"auto_increment"]
  | Computed _ stored => [if stored then B"STORED GENERATED" else B"VIRTUAL GENERATED"]
  | Stamped n =>
      [match e with
       | Maria => B"on update current_timestamp(" ++ match n with 0%N => [] | _ => N_dec n end ++ B")"
       | _ => B"on update CURRENT_TIMESTAMP" ++ precision n
       end]
  | _ => []
  end.
Definition extra (e : engine) (timed hidden : bool) (f : filling) : bytes :=
  join (match e with Maria => B", " | _ => B" " end)
    ((match e with MySQL8 => if timed then [B"DEFAULT_GENERATED"] else [] | _ => [] end)
     ++ extra_word e f ++ if hidden then [B"INVISIBLE"] else []).
(** [dflt] is the default of the column. *)
Definition shown (e : engine) (timed hidden : bool) (dflt : bytes) (f : filling) : row :=
  match e with
  | Pg =>
      PgRow (match f with Numbered always _ _ => if always then B"a" else B"d" | _ => [] end)
        (match f with Computed _ stored => if stored then B"s" else B"v" | _ => [] end)
        (match f with Computed x _ => x | _ => dflt end)
  | Ms =>
      MsRow (match f with Numbered _ s n => Some (s, n) | _ => None end)
        (match f with Computed x _ => B"(" ++ x ++ B")" | _ => [] end)
        (match f with Computed _ stored => stored | _ => false end)
  | _ => MyRow (extra e timed hidden f) (match f with Computed x _ => replace_byte squote (B"\'") x | _ => [] end)
  end.

(** ** Definitions of columns *)
Definition read_int (ts : toks) : option (Z * toks) :=
  match ts with
  | Num w :: r => let? n := dec_N w in Some (Z.of_N n, r)
  | Sym c :: Num w :: r => if ceqb c "-" then let? n := dec_N w in Some (- Z.of_N n, r)%Z else None
  | _ => None
  end.
(** Without options: from 1 in steps of 1. *)
Definition numbers (ts : toks) : option (Z * Z) :=
  match ts with
  | [] => Some (1, 1)%Z
  | _ =>
      let? r := sym "(" ts in let? (s, r) := read_int r in
      let? r := sym "," r in let? (n, r) := read_int r in
      let? r := sym ")" r in match r with [] => Some (s, n) | _ => None end
  end.
(** A column that is defined like this fills itself like [f]. *)
Definition fills (d : dialect) (m : column_def) (f : filling) : Prop :=
  match f with
  | Nothing => cd_auto m = false /\ cd_identity m = None /\ cd_generated m = None /\ cd_onupdate m = false
  | Counter => cd_auto m = true /\ cd_identity m = None /\ cd_generated m = None /\ cd_onupdate m = false
  | Numbered always s n =>
      cd_auto m = false /\ cd_generated m = None /\ cd_onupdate m = false
      /\ exists i, cd_identity m = Some i /\ id_always i = always /\ numbers (id_options i) = Some (s, n)
  | Computed x stored =>
      cd_auto m = false /\ cd_identity m = None /\ cd_onupdate m = false
      /\ exists ts, cd_generated m = Some (ts, stored) /\ bare ts = bare (text d x)
  | Stamped n => cd_auto m = false /\ cd_identity m = None /\ cd_generated m = None /\ cd_onupdate m = true /\ n = 0%N
  end.

(** The rest of the column: a name, a type, NOT NULL and, if nothing else fills it, a default. *)
Definition ordinary (d : dialect) (timed : bool) (f : filling) (c : column) : Prop :=
  plain_name d (col_name c) /\ fits_type d c /\ (d = Postgres \/ col_domain c = [] /\ col_enum c = false)
  /\ col_collation c = []
  /\ (col_default c <> [] -> fits_operand d clauses (col_default c))
  /\ match f with Nothing | Stamped _ => True | _ => col_default c = [] /\ timed = false end.
(** What is kept. *)
Definition kept (e : engine) (timed hidden : bool) (c : column) (f : filling) : Prop :=
  match f with
  | Nothing => True
  | Counter => hidden = false
  | Numbered _ s n => e = Ms \/ s = 1%Z /\ n = 1%Z
  | Computed x stored =>
      match e with
      | Ms => True
      | Pg => bracketed Postgres x /\ stored = true
      | _ => bracketed MySQL x /\ col_notnull c = false /\ (stored = true -> hidden = false)
      end
  | Stamped n => e = MySQL8 /\ timed = true /\ hidden = false /\ n = 0%N
  end.
