(** What Postgres does with files of statements that also create extensions, enums and domains, and when it
    has the types of another database.  Nothing here refers to the Go code, except that databases are those of
    ModelExtras.v and catalogs those of ModelCatalog.v.  Whether the system (or an extension) has a type is
    given by [builtin]. *)
From Coq Require Import Permutation.
From Verif Require Import GoStr SpecSql SpecInsert SpecTokens SpecDdl ModelCatalog ModelDiff ModelDiffSql ModelDdlText SpecDdlText SpecDiff SpecApply SpecLoad
  ModelDump ModelWipe SpecLive ModelExtras SpecExtras.

(** ** Commands *)
(** Checks have a name, an expression and are valid for all existing values. *)
Record domain_def := DomainDef {
  dd_type : toks; dd_notnull : bool; dd_collation : option bytes; dd_default : option toks; dd_checks : list (option bytes * toks * bool)
}.
Inductive type_def := DEnum (labels : list bytes) | DDomain (o : domain_def).
Inductive command :=
| IExtension (n : bytes)
| IType (p : list bytes) (t : type_def)
| IStatement (s : statement).

Definition read_label (ts : toks) : option (bytes * toks) := match ts with Str v :: r => Some (v, r) | _ => None end.
(** ENUM () has no labels. *)
Definition read_labels (ts : toks) : option (list bytes * toks) :=
  let? r := sym "(" ts in
  match sym ")" r with
  | Some r => Some ([], r)
  | None => let? (l, r) := tlist read_label (sym ",") r in let? r := sym ")" r in Some (l, r)
  end.
(** The clauses of a domain, in any order; one that is given twice is refused, except for checks. *)
Inductive domain_clause := MNotNull | MCollate (n : bytes) | MDefault (e : toks) | MCheck (n : option bytes) (e : toks).
Definition read_check (n : option bytes) (ts : toks) : option (domain_clause * toks) :=
  let? r := kw (B"CHECK") ts in let? (e, r) := parens expression r in Some (MCheck n e, r).
Definition read_domain_clause (ts : toks) : option (domain_clause * toks) :=
  match kws [B"NOT"; B"NULL"] ts with Some r => Some (MNotNull, r) | None =>
  match kw (B"COLLATE") ts with Some r => let? (n, r) := name Postgres r in Some (MCollate n, r) | None =>
  match kw (B"DEFAULT") ts with Some r => let? (e, r) := operand clauses r in Some (MDefault e, r) | None =>
  match kw (B"CONSTRAINT") ts with Some r => let? (n, r) := name Postgres r in read_check (Some n) r | None => read_check None ts end end end end.
Definition add_domain_clause (o : domain_def) (c : domain_clause) : option domain_def :=
  let '(DomainDef ty nn co e ks) := o in
  match c with
  | MNotNull => if nn then None else Some (DomainDef ty true co e ks)
  | MCollate n => match co with None => Some (DomainDef ty nn (Some n) e ks) | _ => None end
  | MDefault x => match e with None => Some (DomainDef ty nn co (Some x) ks) | _ => None end
  | MCheck n x => Some (DomainDef ty nn co e (ks ++ [(n, x, true)]))
  end.
Fixpoint read_domain_clauses (fuel : nat) (o : domain_def) (ts : toks) : option (domain_def * toks) :=
  if at_end ts then Some (o, ts)
  else match fuel with
  | 0 => None
  | S n => let? (c, r) := read_domain_clause ts in let? o' := add_domain_clause o c in read_domain_clauses n o' r
  end.
(** The words of a type can be written in any case. *)
Definition read_domain (ts : toks) : option (domain_def * toks) :=
  let? (ty, r) := some_run clauses ts in read_domain_clauses (List.length r) (DomainDef (map up ty) false None None []) r.
Definition read_command (ts : toks) : option (list command * toks) :=
  match kws [B"CREATE"; B"EXTENSION"] ts with
  | Some r => let? r := kws [B"IF"; B"NOT"; B"EXISTS"] r in let? (n, r) := name Postgres r in let? r := sym ";" r in Some ([IExtension n], r)
  | None =>
  match kws [B"CREATE"; B"TYPE"] ts with
  | Some r => let? (p, r) := path Postgres r in let? r := kws [B"AS"; B"ENUM"] r in let? (l, r) := read_labels r in let? r := sym ";" r in Some ([IType p (DEnum l)], r)
  | None =>
  match kws [B"CREATE"; B"DOMAIN"] ts with
  | Some r => let? (p, r) := path Postgres r in let? r := kw (B"AS") r in let? (o, r) := read_domain r in let? r := sym ";" r in Some ([IType p (DDomain o)], r)
  | None => let? (l, r) := read_statement Postgres ts in Some (map IStatement l, r)
  end end end.
Fixpoint read_commands (fuel : nat) (ts : toks) : option (list command) :=
  match ts, fuel with
  | [], _ => Some []
  | _, 0 => None
  | _, S n => let? (l, r) := read_command ts in let? l' := read_commands n r in Some (l ++ l')
  end.
Definition command_file (s : bytes) : option (list command) :=
  let? ts := file_tokens Postgres s in read_commands (List.length ts) ts.

(** ** Databases *)
Definition typed := ((bytes * bytes) * type_def)%type.
Record tdb := TDb { t_extensions : list bytes; t_types : list typed; t_rest : ldb }.

Section Running.
Context (builtin : toks -> bool) (cur : bytes).
(** The type that is meant by the name at the beginning. *)
Definition named (ty : toks) : option (bytes * bytes) := let? (p, _) := path Postgres ty in whereabouts cur p.
Definition available (places : list (bytes * bytes)) (ty : toks) : bool :=
  builtin ty || match named ty with Some q => existsb (qeqb q) places | None => false end.
Definition acceptable (places : list (bytes * bytes)) (t : type_def) : bool :=
  match t with
  | DEnum l => distinct l
  | DDomain o => available places (dd_type o) && distinct (flat_map (fun k => match fst (fst k) with Some n => [n] | None => [] end) (dd_checks o))
  end.
(** A table is a type, too. *)
Definition taken (x : tdb) (q : bytes * bytes) : bool :=
  existsb (qeqb q) (map fst (t_types x)) || existsb (qeqb q) (map lt_place (l_tables (t_rest x))).
Definition allowed (x : tdb) (s : statement) : bool :=
  match s with
  | CreateTable p cs _ =>
      match whereabouts cur p with Some q => negb (existsb (qeqb q) (map fst (t_types x))) | None => false end
      && forallb (fun c => available (map fst (t_types x)) (cd_type c)) cs
  | _ => true
  end.
Definition run_command (c : command) (x : tdb) : option tdb :=
  match c with
  | IExtension n => Some (if bmem n (t_extensions x) then x else TDb (t_extensions x ++ [n]) (t_types x) (t_rest x))
  | IType p t =>
      let? q := whereabouts cur p in
      if bmem (fst q) (l_schemas (t_rest x)) && negb (taken x q) && acceptable (map fst (t_types x)) t
      then Some (TDb (t_extensions x) (t_types x ++ [(q, t)]) (t_rest x)) else None
  | IStatement s => if allowed x s then let? y := SpecLoad.run Postgres cur s (t_rest x) in Some (TDb (t_extensions x) (t_types x) y) else None
  end.
Definition run_file (s : bytes) (x : tdb) : option tdb := let? l := command_file s in each_in run_command l (Some x).
Definition run_files (l : list bytes) (x : tdb) : option tdb := each_in run_file l (Some x).
End Running.

(** ** The types of a database *)
Definition domain_meant (coll : bytes) (o : live_domain) : domain_def :=
  DomainDef (map up (text Postgres (ld_type o))) (ld_notnull o)
    (if beqb (ld_collation o) coll then None else if_given (ld_collation o))
    (match ld_default o with [] => None | e => Some (text Postgres e) end)
    (map (fun '(n, e, valid) => (Some n, text Postgres e, valid)) (ld_checks o)).
Definition home_enums (h : home) : list typed :=
  map (fun e => ((hm_name h, en_name (le_enum e)), DEnum (en_labels (le_enum e)))) (hm_enums h).
Definition home_domains (coll : bytes) (h : home) : list typed :=
  map (fun o => ((hm_name h, ld_name o), DDomain (domain_meant coll o))) (hm_domains h).
Definition home_types (coll : bytes) (h : home) : list typed := home_enums h ++ home_domains coll h.
(** Those of the system are not among them. *)
Definition own_homes (db : live) : list home := filter (fun h => negb (system_home Postgres (hm_name h))) (lv_homes db).
Definition live_types (coll : bytes) (db : live) : list typed := flat_map (home_types coll) (own_homes db).

(** Every type uses only types that come before it. *)
Definition in_order (builtin : toks -> bool) (cur : bytes) (l : list typed) : Prop :=
  forall l1 t l2, l = l1 ++ t :: l2 -> acceptable builtin cur (map fst l1) (snd t) = true.

(** ** Databases with types *)
(** The types can be written; texts are those that Postgres gives for its types and expressions. *)
Record writable_domain (coll : bytes) (o : live_domain) : Prop := {
  wd_name : ld_name o <> [] /\ plain_name Postgres (ld_name o);
  wd_typed : SpecDdlText.fits Postgres clauses (ld_type o);
  wd_collation : ld_collation o <> [] -> ld_collation o <> coll -> plain_name Postgres (ld_collation o);
  wd_default : ld_default o <> [] -> fits_operand Postgres clauses (ld_default o);
  wd_checks : forall n e v, In (n, e, v) (ld_checks o) -> n <> [] /\ plain_name Postgres n /\ SpecDdlText.fits Postgres [] e
}.
(** [db] has the types and [cat] the tables of one database: the types can be created in some order, no table has
    the name of a type, and the columns have types that exist. *)
Record one_database (builtin : toks -> bool) (db : live) (cat : catalog) : Prop := {
  od_schemas : forall h, In h (own_homes db) -> home_types [] h <> [] -> In (hm_name h) (map sc_name (ct_schemas cat));
  od_names : NoDup (map fst (live_types (ct_collation cat) db) ++ map (fun e => (fst e, tb_name (snd e))) (catalog_tables cat));
  od_order : exists l, Permutation l (live_types (ct_collation cat) db) /\ in_order builtin (ct_current cat) l;
  od_columns : forall e c, In e (catalog_tables cat) -> In c (tb_columns (snd e)) ->
    available builtin (ct_current cat) (map fst (live_types (ct_collation cat) db)) (type_of Postgres c) = true;
  od_enums : forall h e, In h (own_homes db) -> In e (hm_enums h) -> en_name (le_enum e) <> [] /\ plain_name Postgres (en_name (le_enum e));
  od_domains : forall h o, In h (own_homes db) -> In o (hm_domains h) -> writable_domain (ct_collation cat) o;
  od_extensions : NoDup (lv_extensions db) /\ forall n, In n (lv_extensions db) -> plain_name Postgres n
}.

(** ** The same database *)
Definition has_types (db : live) (cat : catalog) (x y : tdb) : Prop :=
  (forall n, In n (t_extensions y) <-> In n (t_extensions x) \/ In n (lv_extensions db))
  /\ Permutation (t_types y) (live_types (ct_collation cat) db)
  /\ same_database Postgres cat (t_rest y).
Definition without_types (x : tdb) : Prop := t_types x = [] /\ l_tables (t_rest x) = [].

(** ** Databases to which the claim is restricted *)
(** Enums have labels and none of these has two quotes in a row except at its end; domains have checks and these
    are valid.  Types only use those of earlier schemas, or of the same one if they are enums or domains that are
    listed before.  There are no aggregates, and names of schemas do not begin with pg and another character
    in place of the underscore. *)
Definition homes_called (db : live) (s : bytes) : list home := filter (fun h => beqb (hm_name h) s) (own_homes db).
Definition listed_types (db : live) (cat : catalog) : list typed :=
  flat_map (fun s => flat_map home_enums (homes_called db (sc_name s)) ++ flat_map (home_domains (ct_collation cat)) (homes_called db (sc_name s))) (ct_schemas cat).
Definition plain_label (s : bytes) : Prop := ~ exists a c b, s = a ++ squote :: squote :: c :: b.
Record regular_types (builtin : toks -> bool) (db : live) (cat : catalog) : Prop := {
  ry_enums : forall h e, In h (own_homes db) -> In e (hm_enums h) -> en_labels (le_enum e) <> [] /\ forall s, In s (en_labels (le_enum e)) -> plain_label s;
  ry_domains : forall h o, In h (own_homes db) -> In o (hm_domains h) -> ld_checks o <> [] /\ forall c, In c (ld_checks o) -> snd c = true;
  ry_order : in_order builtin (ct_current cat) (listed_types db cat);
  ry_routines : forall h r, In h (own_homes db) -> In r (hm_routines h) -> lr_extension r = false -> lr_kind r <> Aggregate;
  ry_homes : forall h, In h (lv_homes db) -> no_wildcard (B"pg") (hm_name h)
}.
