(** What reading the extensions, enums, domains and routines of a live database should give. *)
From Verif Require Import GoStr SpecCsv ModelDump ModelWipe SpecLive ModelExtras.

(** ** Databases *)
Definition home_ok (d : dialect) (h : home) : Prop :=
  (d <> Postgres -> hm_enums h = [] /\ hm_domains h = [])
  /\ NoDup (map (fun e => en_name (le_enum e)) (hm_enums h)) /\ NoDup (map ld_name (hm_domains h))
  /\ match d with
     | SQLite => hm_routines h = []
     | Postgres =>
         NoDup (map (fun r => (lr_name r, lr_args r)) (hm_routines h))
         /\ forall r, In r (hm_routines h) -> lr_sql r = None <-> lr_kind r = Aggregate
     | MySQL => NoDup (map (fun r => (lr_name r, lr_kind r)) (hm_routines h))
     | _ => NoDup (map lr_name (hm_routines h))
     end
  /\ (d <> Postgres -> forall r, In r (hm_routines h) -> lr_kind r = Function \/ lr_kind r = Procedure).
Definition live_ok (d : dialect) (db : live) : Prop :=
  d <> Other /\ (d <> Postgres -> lv_extensions db = []) /\ NoDup (map hm_name (lv_homes db)) /\ Forall (home_ok d) (lv_homes db).

(** ** The catalog *)
Definition asked (f : extra_choice) (k : bytes) : bool := match x_kinds f with [] => true | l => bmem k l end.
Definition system_home (d : dialect) (s : bytes) : bool :=
  match d with
  | Postgres => beqb s (B"information_schema") || has_prefix s (B"pg_")
  | MySQL => bmem s [B"mysql"; B"information_schema"; B"performance_schema"; B"sys"]
  | _ => false
  end.
Definition system_routine (d : dialect) (n : bytes) : bool := match d with SQLServer => has_prefix (to_lower n) (B"sp_") | _ => false end.
Definition wanted_home (d : dialect) (f : extra_choice) (s : bytes) : bool :=
  (x_system f || negb (system_home d s)) && chosen (x_schemas f) (x_exschemas f) s.
Definition wanted_extensions (f : extra_choice) (db : live) : list bytes :=
  if asked f (B"EXTENSIONS") then filter (chosen (x_extensions f) (x_exextensions f)) (lv_extensions db) else [].
(** The objects of a schema that are wanted. *)
Definition of_home {A} (db : live) (s : bytes) (get : home -> list A) (sel : A -> bool) : list A :=
  flat_map (fun h => if beqb (hm_name h) s then filter sel (get h) else []) (lv_homes db).
Definition enums_of (d : dialect) (f : extra_choice) (db : live) (s : bytes) : list live_enum :=
  of_home db s hm_enums (fun e => asked f (B"ENUMS") && wanted_home d f s && chosen (x_enums f) (x_exenums f) (en_name (le_enum e))).
Definition domains_of (d : dialect) (f : extra_choice) (db : live) (s : bytes) : list live_domain :=
  of_home db s hm_domains (fun o => asked f (B"DOMAINS") && wanted_home d f s && chosen (x_domains f) (x_exdomains f) (ld_name o)).
(** Not those that come with an extension. *)
Definition routine_wanted (d : dialect) (f : extra_choice) (s : bytes) (r : live_routine) : bool :=
  asked f (B"ROUTINES") && wanted_home d f s && (x_system f || negb (system_routine d (lr_name r)))
  && chosen (x_routines f) (x_exroutines f) (lr_name r) && match d with Postgres => negb (lr_extension r) | _ => true end.
Definition routines_of (d : dialect) (f : extra_choice) (db : live) (s : bytes) : list live_routine :=
  of_home db s hm_routines (routine_wanted d f s).
Definition same_domain (o : live_domain) (x : domain * bytes) : Prop :=
  x = (Domain (ld_name o) (ld_type o) (ld_collation o) (ld_notnull o) (ld_default o)
         (map (fun c => fst (fst c)) (ld_checks o)) (map (fun c => B"(" ++ snd (fst c) ++ B")") (ld_checks o)), ld_comment o).
(** The parameters: name and type, for procedures after the mode. *)
Definition params_text (r : live_routine) : bytes :=
  join (B"|") (map (fun '(m, n, t) => match lr_kind r with Procedure => m ++ B" " ++ n ++ B" " ++ t | _ => n ++ B" " ++ t end) (lr_params r)).
Definition attr (x : routine) (k : bytes) : option bytes :=
  match find (fun p => beqb (fst p) k) (rt_attrs x) with Some p => Some (snd p) | None => None end.
(** The same routine, up to line ends in the style of Windows. *)
Definition same_routine (d : dialect) (r : live_routine) (x : routine) : Prop :=
  rt_name x = lr_name r /\ rt_type x = kind_text (lr_kind r)
  /\ (exists s, lr_sql r = Some s /\ lf_of (match d with Postgres => s ++ B";" | _ => s end) (rt_sql x))
  /\ match d with
     | Postgres => rt_args x = lr_args r /\ attr x (B"returnType") = Some (lr_result r) /\ rt_comment x = lr_comment r
     | MySQL =>
         attr x (B"returnType") = Some (lr_result r) /\ attr x (B"parameters") = Some (params_text r)
         /\ (exists b, attr x (B"isDeterministic") = Some b /\ (b = B"true" <-> lr_deterministic r = true))
         /\ (attr x (B"routineBody"), attr x (B"sqlDataAccess"), attr x (B"securityType"))
            = (Some (fst (fst (lr_more r))), Some (snd (fst (lr_more r))), Some (snd (lr_more r)))
         /\ rt_comment x = lr_comment r
     | _ => True
     end.
Definition in_schema {A} (get : place -> list A) (cat : list place) (s : bytes) : list A :=
  flat_map (fun p => if beqb (pl_name p) s then get p else []) cat.
Definition extras_read (d : dialect) (f : extra_choice) (db : live) (exts : list bytes) (cat : list place) : Prop :=
  exts = wanted_extensions f db
  /\ NoDup (map pl_name cat)
  /\ (forall p, In p cat -> pl_enums p <> [] \/ pl_domains p <> [] \/ pl_routines p <> [])
  /\ forall s,
       in_schema pl_enums cat s = map (fun e => (le_enum e, le_comment e)) (enums_of d f db s)
       /\ Forall2 same_domain (domains_of d f db s) (in_schema pl_domains cat s)
       /\ Forall2 (same_routine d) (routines_of d f db s) (in_schema pl_routines cat s).

(** ** Databases that are read as they are *)
(** Not both included and excluded names and no empty ones, for enums and domains none at all. *)
Definition clear_extras_choice (f : extra_choice) : Prop :=
  clear_list (x_schemas f) (x_exschemas f) /\ clear_list (x_routines f) (x_exroutines f) /\ clear_list (x_extensions f) (x_exextensions f)
  /\ (asked f (B"ENUMS") = true -> x_enums f = [] /\ x_exenums f = [])
  /\ (asked f (B"DOMAINS") = true -> x_domains f = [] /\ x_exdomains f = []).
Definition commented (db : live) (comment : bytes) : Prop := comment = [] \/ lv_dbname db = B"pg_type".
(** The enums have labels and the domains have checks that hold for all values; neither have comments. *)
Definition clear_types (d : dialect) (f : extra_choice) (db : live) : Prop :=
  forall s,
    (forall e, In e (enums_of d f db s) -> en_labels (le_enum e) <> [] /\ commented db (le_comment e))
    /\ (forall o, In o (domains_of d f db s) -> ld_checks o <> [] /\ (forall c, In c (ld_checks o) -> snd c = true) /\ commented db (ld_comment o)).
(** The definitions can be seen, there are no aggregates; in MySQL routines have parameters, and no function
    has the name of a procedure. *)
Definition clear_routine (d : dialect) (l : list live_routine) (r : live_routine) : Prop :=
  lr_sql r <> None
  /\ (d = Postgres -> lr_kind r <> Aggregate)
  /\ (d = MySQL -> lr_params r <> [] /\ forall r', In r' l -> lr_name r' = lr_name r -> lr_kind r' = lr_kind r).
Definition clear_extras (d : dialect) (f : extra_choice) (db : live) : Prop :=
  clear_extras_choice f /\ clear_types d f db
  /\ (forall h, In h (lv_homes db) -> d = Postgres -> no_wildcard (B"pg") (hm_name h))
  /\ (forall h r, In h (lv_homes db) -> In r (hm_routines h) -> d = SQLServer -> no_wildcard (B"sp") (to_lower (lr_name r)))
  /\ forall s r, In r (routines_of d f db s) -> clear_routine d (of_home db s hm_routines (fun _ => true)) r.
