(** What a correct catalog cache does. *)
From Verif Require Import GoStr ModelCatalog ModelCache.

(** Catalogs with distinct names and without ignored schemas and tables, whose tables carry
    the name of their schema.  SQLite constraints may have no name. *)
Definition distinct_table (s : bytes) (t : table) : Prop :=
  tb_ignore t = false /\ tb_schema t = s
  /\ NoDup (map col_name (tb_columns t))
  /\ NoDup (filter (fun n => negb (beqb n [])) (map con_name (tb_constraints t)))
  /\ NoDup (map ix_name (tb_indexes t)).
Definition distinct_schema (sc : schema) : Prop :=
  sc_ignore sc = false /\ NoDup (map tb_name (sc_tables sc))
  /\ Forall (distinct_table (sc_name sc)) (sc_tables sc).
Definition distinct_names (schemas : list schema) : Prop :=
  NoDup (map sc_name schemas) /\ Forall distinct_schema schemas.

(** The result [r] of looking for the name [n] in the list [l]: the position of the only
    object with this name, or nothing if there is none.  Ignored objects do not count. *)
Definition found {A} (name : A -> bytes) (ignored : A -> bool) (l : list A) (n : bytes)
  (r : result (option nat)) : Prop :=
  match r with
  | Ok (Some i) =>
      (exists a, nth_error l i = Some a /\ name a = n /\ ignored a = false)
      /\ forall j b, nth_error l j = Some b -> name b = n -> ignored b = false -> j = i
  | Ok None => forall a, In a l -> name a = n -> ignored a = true
  | _ => False
  end.

(** Every lookup is right. *)
Definition right_lookups (st : state) : Prop :=
  let c := st_cache st in
  (forall s, found sc_name sc_ignore (st_schemas st) s (get_schema st s))
  /\ forall sc, In sc (st_schemas st) ->
     (forall t, found tb_name tb_ignore (sc_tables sc) t (get_table c sc t))
     /\ forall tb, In tb (sc_tables sc) ->
        (forall n, found col_name col_ignore (tb_columns tb) n (get_column c tb n))
        /\ (forall n, n <> [] -> found con_name con_ignore (tb_constraints tb) n (get_constraint c tb n))
        /\ (forall n, found ix_name ix_ignore (tb_indexes tb) n (get_index c tb n)).

(** Calls that do not hide a table or replace it: AddOrUpdateTable is only used for
    new, empty tables.  Constraints without a name are only added. *)
Definition careful (st : state) (s : bytes) (o : call) : Prop :=
  match o with
  | CIgnoreTable _ => False
  | CSetTable t =>
      tb_columns t = [] /\ tb_constraints t = [] /\ tb_indexes t = [] /\ tb_ignore t = false
      /\ forall sc, In sc (st_schemas st) -> sc_name sc = s -> ~ In (tb_name t) (map tb_name (sc_tables sc))
  | CConstraint _ n _ _ => n <> []
  | _ => True
  end.
Fixpoint all_careful (st : state) (l : list (bytes * call)) : Prop :=
  match l with
  | [] => True
  | (s, o) :: l' => careful st s o /\ forall st', step st s o = Ok st' -> all_careful st' l'
  end.

(** What the calls mean without a cache: the object with the given name is changed, and
    added before that if there is none. *)
Definition put_in {A} (is : A -> bool) (new : A) (f : A -> A) (l : list A) : list A :=
  if existsb is l then map (fun a => if is a then f a else a) l else l ++ [f new].
Definition live {A} (name : A -> bytes) (ignored : A -> bool) (n : bytes) (a : A) : bool :=
  beqb (name a) n && negb (ignored a).

Definition owned_column (t : table) (x : column) : column :=
  Column (tb_schema t) (tb_name t) (col_name x) (col_type x) (col_length x) (col_precision x) (col_scale x)
    (col_domain x) (col_enum x) (col_notnull x) (col_pkey x) (col_unique x) (col_autoincrement x)
    (col_identity x) (col_default x) (col_onupdate x) (col_generated x) (col_expr x) (col_stored x)
    (col_collation x) (col_ignore x).
Definition owned_constraint (t : table) (x : constraint) : constraint :=
  Constraint (tb_schema t) (tb_name t) (con_name x) (con_type x) (con_columns x) (con_refschema x)
    (con_reftable x) (con_refcolumns x) (con_update x) (con_delete x) (con_match x) (con_check x)
    (con_operators x) (con_indextype x) (con_predicate x) (con_deferrable x) (con_deferred x)
    (con_clustered x) (con_notvalid x) (con_ignore x).
Definition owned_index (t : table) (x : index) : index :=
  Index (tb_schema t) (tb_name t) (ix_name x) (ix_type x) (ix_unique x) (ix_columns x) (ix_include x)
    (ix_descending x) (ix_opclasses x) (ix_predicate x) (ix_sql x) (ix_ignore x).

Definition after_table (o : call) (t : table) : table :=
  match o with
  | CColumn _ n ty =>
      with_columns t (put_in (live col_name col_ignore n) (new_column t n ty) (fun a => a) (tb_columns t))
  | CSetColumn _ x =>
      with_columns t (put_in (live col_name col_ignore (col_name x)) x (fun _ => owned_column t x) (tb_columns t))
  | CConstraint _ n ty cols =>
      with_constraints t (put_in (live con_name con_ignore n) (new_constraint t n ty cols) (fun a => a) (tb_constraints t))
  | CSetConstraint _ x =>
      with_constraints t
        (match con_name x with
         | [] => tb_constraints t ++ [owned_constraint t x]
         | _ => put_in (live con_name con_ignore (con_name x)) x (fun _ => owned_constraint t x) (tb_constraints t)
         end)
  | CIndex _ n cols =>
      with_indexes t (put_in (live ix_name ix_ignore n) (Index (tb_schema t) (tb_name t) n [] false cols [] [] [] [] [] false)
        (fun a => a) (tb_indexes t))
  | CSetIndex _ x =>
      with_indexes t (put_in (live ix_name ix_ignore (ix_name x)) x (fun _ => owned_index t x) (tb_indexes t))
  | _ => t
  end.
Definition table_of (o : call) : option bytes :=
  match o with
  | CSchema | CSetTable _ => None
  | CTable t | CIgnoreTable t | CColumn t _ _ | CSetColumn t _ | CConstraint t _ _ _ | CSetConstraint t _
  | CIndex t _ _ | CSetIndex t _ => Some t
  end.
Definition after_schema (o : call) (sc : schema) : schema :=
  match table_of o, o with
  | Some t, _ =>
      with_tables sc (put_in (live tb_name tb_ignore t) (Table (sc_name sc) t [] false [] [] [] false)
        (after_table o) (sc_tables sc))
  | None, CSetTable t =>
      with_tables sc (sc_tables sc ++ [Table (sc_name sc) (tb_name t) (tb_sql t) (tb_virtual t) (tb_columns t)
        (tb_constraints t) (tb_indexes t) (tb_ignore t)])
  | None, _ => sc
  end.
Definition after (schemas : list schema) (call : bytes * call) : list schema :=
  put_in (live sc_name sc_ignore (fst call)) (Schema (fst call) [] false) (after_schema (snd call)) schemas.

(** The keys of a table: its primary key, if it has not more than one, and its foreign
    keys in the order of the table. *)
Definition one_primary_key (l : list constraint) : Prop :=
  forall i j a b, nth_error l i = Some a -> nth_error l j = Some b ->
    con_type a = PRIMARY_KEY -> con_type b = PRIMARY_KEY -> i = j.
Definition right_keys (st : state) : Prop :=
  forall sc tb, In sc (st_schemas st) -> In tb (sc_tables sc) ->
    (one_primary_key (tb_constraints tb) ->
     found con_type con_ignore (tb_constraints tb) PRIMARY_KEY (get_primary_key (st_cache st) tb))
    /\ get_foreign_keys (st_cache st) tb
       = Ok (filter (fun x => beqb (con_type x) FOREIGN_KEY && negb (con_ignore x)) (tb_constraints tb)).

(** Calls that do not change the type of a constraint. *)
Definition keeps_types (st : state) (s : bytes) (o : call) : Prop :=
  match o with
  | CSetConstraint t x =>
      con_name x <> [] ->
      forall sc tb y, In sc (st_schemas st) -> sc_name sc = s -> In tb (sc_tables sc) -> tb_name tb = t ->
        In y (tb_constraints tb) -> con_name y = con_name x -> con_ignore y = false -> con_type y = con_type x
  | _ => True
  end.
Fixpoint all_keep_types (st : state) (l : list (bytes * call)) : Prop :=
  match l with
  | [] => True
  | (s, o) :: l' => keeps_types st s o /\ forall st', step st s o = Ok st' -> all_keep_types st' l'
  end.

(** Catalogs in which the objects of each list have different names, without virtual tables. *)
Definition copyable_table (s : bytes) (t : table) : Prop :=
  tb_schema t = s /\ NoDup (map col_name (tb_columns t)) /\ NoDup (map con_name (tb_constraints t))
  /\ NoDup (map ix_name (tb_indexes t)).
Definition copyable_schema (sc : schema) : Prop :=
  NoDup (map tb_name (sc_tables sc)) /\ Forall (copyable_table (sc_name sc)) (sc_tables sc).
Definition copyable (schemas : list schema) : Prop :=
  NoDup (map sc_name schemas) /\ Forall copyable_schema schemas.
Definition no_virtual (schemas : list schema) : Prop :=
  forall sc t, In sc schemas -> In t (sc_tables sc) -> tb_virtual t = false.
