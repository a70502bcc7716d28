(** Model of Catalog.WriteCatalog, ddl/catalog_cache.go:804-940, with the slices and maps that the objects of a
    catalog consist of.  A slice of strings, booleans or numbers or a map is a cell of the heap; an object has
    references to its cells.

    Simplified: every slice is all of its array.  The slices of objects (Schemas, Tables, Columns ...) are lists:
    WriteCatalog only appends to those of [dest] and changes their elements.  The maps of extensions, primary keys
    and foreign keys of the cache are left out since WriteCatalog does not look at them.  The fields of a column
    that are not in ModelCatalog.v are a list of texts. *)
From Verif Require Import GoStr ModelCatalog ModelCache.

(** ** Objects, ddl.go:51-600; [R] is what they have in place of slices and maps. *)
Section Objects.
Context {R : Type}.
Record o_enum := OEnum { oe_schema : bytes; oe_name : bytes; oe_labels : R; oe_comment : bytes; oe_ignore : bool }.
Record o_domain := ODomain {
  od_schema : bytes; od_name : bytes; od_type : bytes; od_collation : bytes; od_notnull : bool; od_default : bytes;
  od_checknames : R; od_checkexprs : R; od_comment : bytes; od_ignore : bool
}.
Record o_routine := ORoutine {
  or_schema : bytes; or_name : bytes; or_args : bytes; or_type : bytes; or_sql : bytes; or_attrs : R; or_comment : bytes; or_ignore : bool
}.
Record o_trigger := OTrigger {
  ot_schema : bytes; ot_table : bytes; ot_name : bytes; ot_view : bool; ot_sql : bytes; ot_attrs : R; ot_comment : bytes; ot_ignore : bool
}.
Record o_index := OIndex {
  oi_schema : bytes; oi_table : bytes; oi_name : bytes; oi_type : bytes; oi_view : bool; oi_unique : bool;
  oi_columns : R; oi_include : R; oi_descending : R; oi_opclasses : R; oi_predicate : bytes; oi_sql : bytes; oi_comment : bytes; oi_ignore : bool
}.
Record o_view := OView {
  ov_schema : bytes; ov_name : bytes; ov_materialized : bool; ov_sql : bytes; ov_columns : R; ov_types : R; ov_enums : R;
  ov_indexes : list o_index; ov_triggers : list o_trigger; ov_comment : bytes; ov_ignore : bool
}.
Record o_column := OColumn { oc_column : column; oc_more : list bytes }.
Record o_constraint := OConstraint {
  ok_schema : bytes; ok_table : bytes; ok_name : bytes; ok_type : bytes; ok_columns : R; ok_refschema : bytes; ok_reftable : bytes; ok_refcolumns : R;
  ok_update : bytes; ok_delete : bytes; ok_match : bytes; ok_check : bytes; ok_operators : R; ok_indextype : bytes; ok_predicate : bytes;
  ok_flags : list bool; ok_comment : bytes; ok_ignore : bool
}.
Record o_table := OTable {
  oa_schema : bytes; oa_name : bytes; oa_sql : bytes; oa_virtual : bool; oa_columns : list o_column; oa_constraints : list o_constraint;
  oa_indexes : list o_index; oa_triggers : list o_trigger; oa_comment : bytes; oa_ignore : bool
}.
Record o_schema := OSchema {
  os_name : bytes; os_tables : list o_table; os_views : list o_view; os_routines : list o_routine; os_enums : list o_enum; os_domains : list o_domain;
  os_valid : bool * bool * bool * bool; os_comment : bytes; os_ignore : bool
}.
Record o_catalog := OCatalog {
  og_dialect : dialect; og_version : R; og_name : bytes; og_current : bytes; og_collation : bytes; og_extensions : R;
  og_valid : bool * bool; og_schemas : list o_schema
}.
End Objects.
Arguments o_enum : clear implicits. Arguments o_domain : clear implicits. Arguments o_routine : clear implicits. Arguments o_trigger : clear implicits.
Arguments o_index : clear implicits. Arguments o_view : clear implicits. Arguments o_constraint : clear implicits. Arguments o_table : clear implicits.
Arguments o_schema : clear implicits. Arguments o_catalog : clear implicits.

(** ** The heap *)
Inductive cell := Strings (l : list bytes) | Bools (l : list bool) | Ints (l : list nat) | Pairs (l : list (bytes * bytes)).
Definition heap := list cell.
(** [None] is nil. *)
Definition ref := option nat.
(** cloneSlice and cloneMap, catalog_cache.go:922-940. *)
Definition clone (h : heap) (r : ref) : heap * ref :=
  match r with
  | None => (h, None)
  | Some i => match nth_error h i with Some c => (h ++ [c], Some (List.length h)) | None => (h, None) end
  end.

(** ** The cache, catalog_cache.go:9-24: which map, which key. *)
Inductive kind := KSchema | KEnum | KDomain | KRoutine | KView | KTable | KColumn | KConstraint | KIndex | KTrigger.
Definition kindb (a b : kind) : bool :=
  match a, b with
  | KSchema, KSchema | KEnum, KEnum | KDomain, KDomain | KRoutine, KRoutine | KView, KView | KTable, KTable | KColumn, KColumn
  | KConstraint, KConstraint | KIndex, KIndex | KTrigger, KTrigger => true
  | _, _ => false
  end.
Definition where_kept := kind -> kmap.
Definition keep (c : where_kept) (k : kind) (x : key) (i : nat) : where_kept := fun k' => if kindb k k' then upd (c k') x (Some i) else c k'.
Definition keep_all {A} (k : kind) (x : A -> key) (l : list A) (c : where_kept) : where_kept :=
  fold_left (fun c '(i, a) => keep c k (x a) i) (indexed l) c.
(** NewCatalogCache, catalog_cache.go:27-111. *)
Definition keep_view {R} (s : bytes) (c : where_kept) (v : o_view R) : where_kept :=
  if ov_materialized v then keep_all KIndex (fun x => [s; ov_name v; oi_name x]) (ov_indexes v) c
  else keep_all KTrigger (fun x => [s; ov_name v; ot_name x]) (ov_triggers v) c.
Definition keep_table {R} (s : bytes) (c : where_kept) (t : o_table R) : where_kept :=
  let c := keep_all KColumn (fun x => [s; oa_name t; col_name (oc_column x)]) (oa_columns t) c in
  let c := fold_left (fun c '(i, x) => match ok_name x with [] => c | n => keep c KConstraint [s; oa_name t; n] i end) (indexed (oa_constraints t)) c in
  let c := keep_all KIndex (fun x => [s; oa_name t; oi_name x]) (oa_indexes t) c in
  keep_all KTrigger (fun x => [s; oa_name t; ot_name x]) (oa_triggers t) c.
Definition keep_schema {R} (d : dialect) (c : where_kept) (s : o_schema R) : where_kept :=
  let n := os_name s in
  let c := keep_all KEnum (fun x => [n; oe_name x]) (os_enums s) c in
  let c := keep_all KDomain (fun x => [n; od_name x]) (os_domains s) c in
  let c := keep_all KRoutine (fun x => [n; or_name x; match d with Postgres => or_args x | _ => [] end]) (os_routines s) c in
  let c := fold_left (fun c '(i, v) => keep_view n (keep c KView [n; ov_name v] i) v) (indexed (os_views s)) c in
  fold_left (fun c '(i, t) => keep_table n (keep c KTable [n; oa_name t] i) t) (indexed (os_tables s)) c.
Definition new_where {R} (g : o_catalog R) : where_kept :=
  fold_left (fun c '(i, s) => keep_schema (og_dialect g) (keep c KSchema [os_name s] i) s) (indexed (og_schemas g)) (fun _ _ => None).

(** ** GetOrCreate and what is done with the object, e.g. catalog_cache.go:186-198 and 828-833. *)
Definition state := (where_kept * heap)%type.
Definition put {A} (k : kind) (x : key) (ignored : A -> bool) (new : A) (fill : A -> state -> result (A * state)) (l : list A) (st : state) : result (list A * state) :=
  bindr (get_or_create ignored new l (fst st k x)) (fun '(l, e, i) =>
    let c := match e with Some j => keep (fst st) k x j | None => fst st end in
    match nth_error l i with
    | None => Panic
    | Some a => bindr (fill a (c, snd st)) (fun '(a, st) => Ok (set_nth i a l, st))
    end).
(** A loop over the objects of [src]. *)
Fixpoint put_all {A} (step : A -> list A -> state -> result (list A * state)) (from : list A) (l : list A) (st : state) : result (list A * state) :=
  match from with
  | [] => Ok (l, st)
  | a :: from' => bindr (step a l st) (fun '(l, st) => put_all step from' l st)
  end.

(** ** WriteCatalog *)
(** GetOrCreateEnum and catalog_cache.go:827-834. *)
Definition put_enum (s : bytes) (x : o_enum ref) : list (o_enum ref) -> state -> result (list (o_enum ref) * state) :=
  put KEnum [s; oe_name x] oe_ignore (OEnum s (oe_name x) None [] false) (fun _ '(c, h) =>
    let '(h, labels) := clone h (oe_labels x) in
    Ok (OEnum (oe_schema x) (oe_name x) labels (oe_comment x) (oe_ignore x), (c, h))).
(** GetOrCreateDomain and catalog_cache.go:836-848. *)
Definition put_domain (s : bytes) (x : o_domain ref) : list (o_domain ref) -> state -> result (list (o_domain ref) * state) :=
  put KDomain [s; od_name x] od_ignore (ODomain s (od_name x) [] [] false [] None None [] false) (fun _ '(c, h) =>
    let '(h, names) := clone h (od_checknames x) in
    let '(h, exprs) := clone h (od_checkexprs x) in
    Ok (ODomain (od_schema x) (od_name x) (od_type x) (od_collation x) (od_notnull x) (od_default x) names exprs (od_comment x) (od_ignore x), (c, h))).
(** GetOrCreateRoutine and catalog_cache.go:850-860. *)
Definition put_routine (s : bytes) (x : o_routine ref) : list (o_routine ref) -> state -> result (list (o_routine ref) * state) :=
  put KRoutine [s; or_name x; or_args x] or_ignore (ORoutine s (or_name x) (or_args x) [] [] None [] false) (fun _ '(c, h) =>
    let '(h, attrs) := clone h (or_attrs x) in
    Ok (ORoutine (or_schema x) (or_name x) (or_args x) (or_type x) (or_sql x) attrs (or_comment x) (or_ignore x), (c, h))).
(** GetOrCreateViewTrigger, GetOrCreateTrigger and catalog_cache.go:879-883, 910-914. *)
Definition put_trigger (s t : bytes) (x : o_trigger ref) : list (o_trigger ref) -> state -> result (list (o_trigger ref) * state) :=
  put KTrigger [s; t; ot_name x] ot_ignore (OTrigger s t (ot_name x) false [] None [] false) (fun _ '(c, h) =>
    let '(h, attrs) := clone h (ot_attrs x) in
    Ok (OTrigger (ot_schema x) (ot_table x) (ot_name x) (ot_view x) (ot_sql x) attrs (ot_comment x) (ot_ignore x), (c, h))).
(** GetOrCreateViewIndex and catalog_cache.go:873-878: Descending and Opclasses are not cloned. *)
Definition put_view_index (s t : bytes) (x : o_index ref) : list (o_index ref) -> state -> result (list (o_index ref) * state) :=
  put KIndex [s; t; oi_name x] oi_ignore (OIndex s t (oi_name x) [] false false (oi_columns x) None None None [] [] [] false) (fun _ '(c, h) =>
    let '(h, columns) := clone h (oi_columns x) in
    let '(h, include) := clone h (oi_include x) in
    Ok (OIndex (oi_schema x) (oi_table x) (oi_name x) (oi_type x) (oi_view x) (oi_unique x) columns include (oi_descending x) (oi_opclasses x)
          (oi_predicate x) (oi_sql x) (oi_comment x) (oi_ignore x), (c, h))).
(** GetOrCreateIndex and catalog_cache.go:902-909. *)
Definition put_index (s t : bytes) (x : o_index ref) : list (o_index ref) -> state -> result (list (o_index ref) * state) :=
  put KIndex [s; t; oi_name x] oi_ignore (OIndex s t (oi_name x) [] false false (oi_columns x) None None None [] [] [] false) (fun _ '(c, h) =>
    let '(h, columns) := clone h (oi_columns x) in
    let '(h, descending) := clone h (oi_descending x) in
    let '(h, opclasses) := clone h (oi_opclasses x) in
    let '(h, include) := clone h (oi_include x) in
    Ok (OIndex (oi_schema x) (oi_table x) (oi_name x) (oi_type x) (oi_view x) (oi_unique x) columns include descending opclasses
          (oi_predicate x) (oi_sql x) (oi_comment x) (oi_ignore x), (c, h))).
(** GetOrCreateView and catalog_cache.go:862-884. *)
Definition put_view (s : bytes) (x : o_view ref) : list (o_view ref) -> state -> result (list (o_view ref) * state) :=
  put KView [s; ov_name x] ov_ignore (OView s (ov_name x) false [] None None None [] [] [] false) (fun v '(c, h) =>
    let '(h, columns) := clone h (ov_columns x) in
    let '(h, types) := clone h (ov_types x) in
    let '(h, enums) := clone h (ov_enums x) in
    bindr (put_all (put_view_index (ov_schema x) (ov_name x)) (ov_indexes x) (ov_indexes v) (c, h)) (fun '(indexes, st) =>
    bindr (put_all (put_trigger (ov_schema x) (ov_name x)) (ov_triggers x) (ov_triggers v) st) (fun '(triggers, st) =>
    Ok (OView (ov_schema x) (ov_name x) (ov_materialized x) (ov_sql x) columns types enums indexes triggers (ov_comment x) (ov_ignore x), st)))).
(** GetOrCreateColumn and catalog_cache.go:891-894. *)
Definition new_column (s t n ty : bytes) : column :=
  Column s t n ty [] [] [] [] false false false false false [] [] false false [] false [] false.
Definition put_column (s t : bytes) (x : o_column) : list o_column -> state -> result (list o_column * state) :=
  put KColumn [s; t; col_name (oc_column x)] (fun y => col_ignore (oc_column y)) (OColumn (new_column s t (col_name (oc_column x)) (col_type (oc_column x))) [])
    (fun _ st => Ok (x, st)).
(** GetOrCreateConstraint and catalog_cache.go:895-901. *)
Definition put_constraint (s t : bytes) (x : o_constraint ref) : list (o_constraint ref) -> state -> result (list (o_constraint ref) * state) :=
  put KConstraint [s; t; ok_name x] ok_ignore
    (OConstraint s t (ok_name x) (ok_type x) (ok_columns x) [] [] None [] [] [] [] None [] [] [] [] false) (fun _ '(c, h) =>
    let '(h, columns) := clone h (ok_columns x) in
    let '(h, refcolumns) := clone h (ok_refcolumns x) in
    let '(h, operators) := clone h (ok_operators x) in
    Ok (OConstraint (ok_schema x) (ok_table x) (ok_name x) (ok_type x) columns (ok_refschema x) (ok_reftable x) refcolumns (ok_update x) (ok_delete x)
          (ok_match x) (ok_check x) operators (ok_indextype x) (ok_predicate x) (ok_flags x) (ok_comment x) (ok_ignore x), (c, h))).
(** GetOrCreateTable and catalog_cache.go:886-915: IsVirtual is not copied. *)
Definition put_table (s : bytes) (x : o_table ref) : list (o_table ref) -> state -> result (list (o_table ref) * state) :=
  put KTable [s; oa_name x] oa_ignore (OTable s (oa_name x) [] false [] [] [] [] [] false) (fun t st =>
    bindr (put_all (put_column (oa_schema x) (oa_name x)) (oa_columns x) (oa_columns t) st) (fun '(columns, st) =>
    bindr (put_all (put_constraint (oa_schema x) (oa_name x)) (oa_constraints x) (oa_constraints t) st) (fun '(constraints, st) =>
    bindr (put_all (put_index (oa_schema x) (oa_name x)) (oa_indexes x) (oa_indexes t) st) (fun '(indexes, st) =>
    bindr (put_all (put_trigger (oa_schema x) (oa_name x)) (oa_triggers x) (oa_triggers t) st) (fun '(triggers, st) =>
    Ok (OTable (oa_schema x) (oa_name x) (oa_sql x) (oa_virtual t) columns constraints indexes triggers (oa_comment x) (oa_ignore x), st)))))).
(** GetOrCreateSchema and catalog_cache.go:817-916. *)
Definition put_schema (x : o_schema ref) : list (o_schema ref) -> state -> result (list (o_schema ref) * state) :=
  let n := os_name x in
  put KSchema [n] os_ignore (OSchema n [] [] [] [] [] (false, false, false, false) [] false) (fun s st =>
    bindr (put_all (put_enum n) (os_enums x) (os_enums s) st) (fun '(enums, st) =>
    bindr (put_all (put_domain n) (os_domains x) (os_domains s) st) (fun '(domains, st) =>
    bindr (put_all (put_routine n) (os_routines x) (os_routines s) st) (fun '(routines, st) =>
    bindr (put_all (put_view n) (os_views x) (os_views s) st) (fun '(views, st) =>
    bindr (put_all (put_table n) (os_tables x) (os_tables s) st) (fun '(tables, st) =>
    Ok (OSchema n tables views routines enums domains (os_valid x) (os_comment x) (os_ignore x), st))))))).
(** WriteCatalog, catalog_cache.go:806-919. *)
Definition write_catalog (src dest : o_catalog ref) (h : heap) : result (o_catalog ref * heap) :=
  let c := new_where dest in
  let '(h, version) := clone h (og_version src) in
  let '(h, extensions) := clone h (og_extensions src) in
  bindr (put_all put_schema (og_schemas src) (og_schemas dest) (c, h)) (fun '(schemas, (_, h)) =>
  Ok (OCatalog (og_dialect src) version (og_name src) (og_current src) (og_collation src) extensions (og_valid src) schemas, h)).
