(** When two catalogs share nothing and when one has the contents of another.  Only the objects and the heap of
    ModelDeep.v are used. *)
From Verif Require Import GoStr ModelCatalog ModelDeep.

(** ** All the references of a catalog *)
Section Slots.
Context {R : Type}.
Definition enum_slots (x : o_enum R) : list R := [oe_labels x].
Definition domain_slots (x : o_domain R) : list R := [od_checknames x; od_checkexprs x].
Definition routine_slots (x : o_routine R) : list R := [or_attrs x].
Definition trigger_slots (x : o_trigger R) : list R := [ot_attrs x].
Definition index_slots (x : o_index R) : list R := [oi_columns x; oi_include x; oi_descending x; oi_opclasses x].
Definition view_slots (x : o_view R) : list R :=
  [ov_columns x; ov_types x; ov_enums x] ++ flat_map index_slots (ov_indexes x) ++ flat_map trigger_slots (ov_triggers x).
Definition constraint_slots (x : o_constraint R) : list R := [ok_columns x; ok_refcolumns x; ok_operators x].
Definition table_slots (x : o_table R) : list R :=
  flat_map constraint_slots (oa_constraints x) ++ flat_map index_slots (oa_indexes x) ++ flat_map trigger_slots (oa_triggers x).
Definition schema_slots (x : o_schema R) : list R :=
  flat_map enum_slots (os_enums x) ++ flat_map domain_slots (os_domains x) ++ flat_map routine_slots (os_routines x)
  ++ flat_map view_slots (os_views x) ++ flat_map table_slots (os_tables x).
Definition slots (g : o_catalog R) : list R := [og_version g; og_extensions g] ++ flat_map schema_slots (og_schemas g).
End Slots.
(** The cells that can be reached. *)
Definition reaches (g : o_catalog ref) (i : nat) : Prop := In (Some i) (slots g).

(** ** The contents of a catalog *)
Section Contents.
Context {R S : Type} (f : R -> S).
Definition enum_with (x : o_enum R) : o_enum S := OEnum (oe_schema x) (oe_name x) (f (oe_labels x)) (oe_comment x) (oe_ignore x).
Definition domain_with (x : o_domain R) : o_domain S :=
  ODomain (od_schema x) (od_name x) (od_type x) (od_collation x) (od_notnull x) (od_default x) (f (od_checknames x)) (f (od_checkexprs x)) (od_comment x) (od_ignore x).
Definition routine_with (x : o_routine R) : o_routine S :=
  ORoutine (or_schema x) (or_name x) (or_args x) (or_type x) (or_sql x) (f (or_attrs x)) (or_comment x) (or_ignore x).
Definition trigger_with (x : o_trigger R) : o_trigger S :=
  OTrigger (ot_schema x) (ot_table x) (ot_name x) (ot_view x) (ot_sql x) (f (ot_attrs x)) (ot_comment x) (ot_ignore x).
Definition index_with (x : o_index R) : o_index S :=
  OIndex (oi_schema x) (oi_table x) (oi_name x) (oi_type x) (oi_view x) (oi_unique x) (f (oi_columns x)) (f (oi_include x)) (f (oi_descending x)) (f (oi_opclasses x))
    (oi_predicate x) (oi_sql x) (oi_comment x) (oi_ignore x).
Definition view_with (x : o_view R) : o_view S :=
  OView (ov_schema x) (ov_name x) (ov_materialized x) (ov_sql x) (f (ov_columns x)) (f (ov_types x)) (f (ov_enums x))
    (map index_with (ov_indexes x)) (map trigger_with (ov_triggers x)) (ov_comment x) (ov_ignore x).
Definition constraint_with (x : o_constraint R) : o_constraint S :=
  OConstraint (ok_schema x) (ok_table x) (ok_name x) (ok_type x) (f (ok_columns x)) (ok_refschema x) (ok_reftable x) (f (ok_refcolumns x)) (ok_update x) (ok_delete x)
    (ok_match x) (ok_check x) (f (ok_operators x)) (ok_indextype x) (ok_predicate x) (ok_flags x) (ok_comment x) (ok_ignore x).
Definition table_with (x : o_table R) : o_table S :=
  OTable (oa_schema x) (oa_name x) (oa_sql x) (oa_virtual x) (oa_columns x) (map constraint_with (oa_constraints x)) (map index_with (oa_indexes x))
    (map trigger_with (oa_triggers x)) (oa_comment x) (oa_ignore x).
Definition schema_with (x : o_schema R) : o_schema S :=
  OSchema (os_name x) (map table_with (os_tables x)) (map view_with (os_views x)) (map routine_with (os_routines x)) (map enum_with (os_enums x))
    (map domain_with (os_domains x)) (os_valid x) (os_comment x) (os_ignore x).
Definition catalog_with (g : o_catalog R) : o_catalog S :=
  OCatalog (og_dialect g) (f (og_version g)) (og_name g) (og_current g) (og_collation g) (f (og_extensions g)) (og_valid g) (map schema_with (og_schemas g)).
End Contents.
(** nil or the elements. *)
Definition look (h : heap) (r : ref) : option cell := match r with None => None | Some i => nth_error h i end.
Definition contents (h : heap) (g : o_catalog ref) : o_catalog (option cell) := catalog_with (look h) g.

(** ** Independence *)
(** The cells outside of [g] are the same. *)
Definition only_in (g : o_catalog ref) (h h' : heap) : Prop := forall i, ~ reaches g i -> nth_error h' i = nth_error h i.
(** Whatever is done to the slices and maps of the one, the other does not change. *)
Definition independent (h : heap) (a b : o_catalog ref) : Prop :=
  (forall h', only_in a h h' -> contents h' b = contents h b) /\ (forall h', only_in b h h' -> contents h' a = contents h a).
(** No reference leads out of the heap. *)
Definition sound (h : heap) (g : o_catalog ref) : Prop := forall i, reaches g i -> i < List.length h.

(** ** Catalogs that the claims are about *)
Definition empty_catalog : o_catalog ref := OCatalog Other None [] [] [] None (false, false) [].
(** What distinguishes the objects: enums, domains, tables and views have names that are unique in their schema,
    routines something ([by_]); columns, indexes and triggers have names that are unique in their table, and so have
    constraints unless they have no name (all those of SQLite). *)
Section Names.
Context {R T : Type} (by_ : o_routine R -> T).
Record distinct_names (g : o_catalog R) : Prop := {
  dn_schemas : NoDup (map os_name (og_schemas g));
  dn_enums : forall s, In s (og_schemas g) -> NoDup (map oe_name (os_enums s));
  dn_domains : forall s, In s (og_schemas g) -> NoDup (map od_name (os_domains s));
  dn_routines : forall s, In s (og_schemas g) -> NoDup (map by_ (os_routines s));
  dn_relations : forall s, In s (og_schemas g) -> NoDup (map oa_name (os_tables s) ++ map ov_name (os_views s));
  dn_views : forall s v, In s (og_schemas g) -> In v (os_views s) -> NoDup (map oi_name (ov_indexes v)) /\ NoDup (map ot_name (ov_triggers v));
  dn_tables : forall s t, In s (og_schemas g) -> In t (os_tables s) ->
    NoDup (map (fun c => col_name (oc_column c)) (oa_columns t)) /\ NoDup (filter (fun n => match n with [] => false | _ => true end) (map ok_name (oa_constraints t))) /\ NoDup (map oi_name (oa_indexes t)) /\ NoDup (map ot_name (oa_triggers t));
  (** Objects say where they are. *)
  dn_placed : forall s, In s (og_schemas g) -> (forall t, In t (os_tables s) -> oa_schema t = os_name s) /\ (forall v, In v (os_views s) -> ov_schema v = os_name s)
}.
End Names.
(** Routines that differ in their name or arguments, or one is a function and the other a procedure. *)
Definition by_args {R} (r : o_routine R) : bytes * bytes := (or_name r, or_args r).
Definition by_type {R} (r : o_routine R) : bytes * bytes * bytes := (or_type r, or_name r, or_args r).
(** All constraints have names. *)
Definition all_named {R} (g : o_catalog R) : Prop := forall s t c, In s (og_schemas g) -> In t (os_tables s) -> In c (oa_constraints t) -> ok_name c <> [].
(** Nothing is to be ignored. *)
Record none_ignored {R} (g : o_catalog R) : Prop := {
  ni_schemas : forall s, In s (og_schemas g) -> os_ignore s = false;
  ni_enums : forall s x, In s (og_schemas g) -> In x (os_enums s) -> oe_ignore x = false;
  ni_domains : forall s x, In s (og_schemas g) -> In x (os_domains s) -> od_ignore x = false;
  ni_routines : forall s x, In s (og_schemas g) -> In x (os_routines s) -> or_ignore x = false;
  ni_views : forall s v, In s (og_schemas g) -> In v (os_views s) ->
    ov_ignore v = false /\ (forall x, In x (ov_indexes v) -> oi_ignore x = false) /\ (forall x, In x (ov_triggers v) -> ot_ignore x = false);
  ni_tables : forall s t, In s (og_schemas g) -> In t (os_tables s) ->
    oa_ignore t = false /\ (forall x, In x (oa_columns t) -> col_ignore (oc_column x) = false) /\ (forall x, In x (oa_constraints t) -> ok_ignore x = false)
    /\ (forall x, In x (oa_indexes t) -> oi_ignore x = false) /\ (forall x, In x (oa_triggers t) -> ot_ignore x = false)
}.
(** Only materialized views have indexes and only the others have triggers, as in Postgres.  Routines only have
    arguments in Postgres. *)
Record usual_views {R} (g : o_catalog R) : Prop := {
  uv_views : forall s v, In s (og_schemas g) -> In v (os_views s) -> if ov_materialized v then ov_triggers v = [] else ov_indexes v = [];
  uv_routines : forall s r, In s (og_schemas g) -> In r (os_routines s) -> og_dialect g = Postgres \/ or_args r = []
}.
