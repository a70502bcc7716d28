(** Specification for C121: the grammar of the tags of structs (documentation of the package, "ddl" tags), what is wrong
    in a tag and the path of modifiers that leads to it, and how a mistake is to be shown. *)
From Verif Require Import GoStr ModelModifier ModelParser.

(** The parts of a tag. *)
Inductive part := Column | Table | Index | Key | Foreign | References | Rule | Dialects | Word.
Definition names_of (p : part) : list (bytes * part) :=
  let words := map (fun n => (B n, Word)) in
  let keys := [(B"index", Index); (B"primarykey", Key); (B"unique", Key); (B"foreignkey", Foreign); (B"dialect", Dialects)] in
  let foreign := [(B"onupdate", Rule); (B"ondelete", Rule); (B"index", Index); (B"deferrable", Word); (B"deferred", Word)] in
  match p with
  | Column => (B"references", References) :: keys ++
      words ["type"; "len"; "auto_increment"; "autoincrement"; "identity"; "alwaysidentity"; "notnull"; "onupdatecurrenttimestamp";
             "collate"; "default"; "generated"]%string
  | Table => keys ++ words ["virtual"]%string
  | Index => words ["unique"; "using"]%string
  | Key => words ["deferrable"; "deferred"]%string
  | Foreign => (B"references", Word) :: foreign
  | References => foreign
  | Rule | Dialects | Word => []
  end.
Fixpoint lookup (n : bytes) (l : list (bytes * part)) : option part :=
  match l with [] => None | (k, p) :: l' => if beqb n k then Some p else lookup n l' end.
Definition inside (p : part) (n : bytes) : option part := lookup n (names_of p).
Definition compound (p : part) : Prop := In p [Index; Key; Foreign; References].
Definition rule_words : list bytes := map B ["cascade"; "restrict"; "noaction"; "setnull"; "setdefault"; ""]%string.
(** The columns that a key can fall back on. *)
Definition columns_for (p : part) (own : list bytes) (m' : modifier) : list bytes :=
  match p with Foreign => split_byte ","%char (m_value m') | _ => own end.
(** What keeps the rest of a modifier from being looked at. *)
Definition open (p : part) (m' : modifier) : Prop := p = Foreign -> own_value (m_value m') = true.

(** [wrong d p own m path c]: [m], as a [p], has the mistake [c] in the modifier inside it that [path] leads to. *)
Inductive wrong (d : dialect) : part -> list bytes -> modifier -> list bytes -> complaint -> Prop :=
| w_unreadable p own m : compound p -> parsed_value m = Err -> wrong d p own m [] (BadModifier (m_raw m))
| w_no_column p m m' : In p [Index; Key] -> parsed_value m = Ok m' -> own_value (m_value m') = false -> wrong d p [] m [] NoColumn
| w_no_columns own m m' : parsed_value m = Ok m' -> own_value (m_value m') = false -> wrong d Foreign own m [] NoColumn
| w_no_reference own m m' : parsed_value m = Ok m' -> own_value (m_value m') = true -> m_subs m' = [] -> wrong d Foreign own m [] NoReference
| w_unnamed m m' : parsed_value m = Ok m' -> wrong d References [[]] m [] NoColumn
| w_rule own m : ~ In (m_raw m) rule_words -> wrong d Rule own m [] (UnknownValue (m_raw m))
| w_dialect own m : m_raw m = [] -> wrong d Dialects own m [] BlankDialect
| w_unknown p own m m' s : compound p -> parsed_value m = Ok m' -> open p m' -> In s (m_subs m') -> excluded d s = false ->
    inside p (m_name s) = None -> wrong d p own m [] (UnknownModifier (m_name s))
| w_inside p q own m m' s path c : compound p -> parsed_value m = Ok m' -> open p m' -> In s (m_subs m') -> excluded d s = false ->
    inside p (m_name s) = Some q -> wrong d q (columns_for p own m') s path c -> wrong d p own m (m_name s :: path) c.

(** The modifiers of a field that count, each with the dialects that a "dialect" before it has set.  For a table, those of
    other dialects are looked at too. *)
Definition scope (ds : list bytes) (m : modifier) : modifier :=
  match m_dialects m with [] => Mod ds (m_name m) (m_raw m) (m_value m) (m_subs m) | _ => m end.
Definition counts (d : dialect) (p : part) (m : modifier) : Prop := p = Column -> excluded d m = false.
Inductive next_scope (d : dialect) (p : part) (ds : list bytes) (m : modifier) : list bytes -> Prop :=
| ns_set : counts d p (scope ds m) -> m_name m = B"dialect" -> m_raw m <> [] -> next_scope d p ds m (split_byte ","%char (m_raw m))
| ns_keep : ~ counts d p (scope ds m) \/ m_name m <> B"dialect" \/ m_raw m = [] -> next_scope d p ds m ds.
Inductive reached (d : dialect) (p : part) : list bytes -> list modifier -> modifier -> Prop :=
| r_here ds m ms : counts d p (scope ds m) -> reached d p ds (m :: ms) (scope ds m)
| r_later ds ds' m ms m' : next_scope d p ds m ds' -> reached d p ds' ms m' -> reached d p ds (m :: ms) m'.
(** What is wrong in the tag of a field, and the path that leads there. *)
Inductive tag_wrong (d : dialect) (p : part) (own : list bytes) (ms : list modifier) : list bytes -> complaint -> Prop :=
| t_unknown m : reached d p [] ms m -> inside p (m_name m) = None -> tag_wrong d p own ms [] (UnknownModifier (m_name m))
| t_inside q m path c : reached d p [] ms m -> inside p (m_name m) = Some q -> wrong d q own m path c -> tag_wrong d p own ms (m_name m :: path) c.

(** ** Tags for which the path of every mistake is the one reported *)
(** What makes the keys of a foreign key longer. *)
Definition lengthens (d : dialect) (p : part) (s : modifier) : Prop :=
  excluded d s = false /\ (inside p (m_name s) = Some Index \/ inside p (m_name s) = Some Rule /\ ~ In (m_raw s) rule_words).
Definition harmless (d : dialect) (p : part) (s : modifier) : Prop :=
  excluded d s = true \/ exists q, inside p (m_name s) = Some q /\ (q = Word \/ q = Rule /\ In (m_raw s) rule_words).
(** Behind a wrong rule or an index there is nothing else to report. *)
Definition straight (d : dialect) (p : part) (l : list modifier) : Prop :=
  forall a s b, l = a ++ s :: b -> lengthens d p s -> Forall (harmless d p) b.
(** Unknown modifiers come before all keys and blank dialects, and foreign keys are straight. *)
Definition orderly (d : dialect) (p : part) (ms : list modifier) : Prop :=
  (forall a m b x, ms = a ++ m :: b -> In x b -> inside p (m_name x) = None ->
     inside p (m_name m) = None \/ inside p (m_name m) = Some Word \/ inside p (m_name m) = Some Dialects /\ m_raw m <> []) /\
  (forall ds m m' q, In m ms -> inside p (m_name m) = Some q -> In q [Foreign; References] -> parsed_value (scope ds m) = Ok m' -> straight d q (m_subs m')).

(** ** How a mistake is to be shown: the struct, its field if it has a name, the path if there is one, and the message. *)
Fixpoint dotted (l : list bytes) : bytes := match l with [] => [] | [x] => x | x :: l' => x ++ B"." ++ dotted l' end.
Definition line (struct field : bytes) (path : list bytes) (msg : bytes) : bytes :=
  struct ++ match field with [] => [] | _ => B"." ++ field end ++ B": " ++ match path with [] => [] | _ => dotted path ++ B": " end ++ msg.
