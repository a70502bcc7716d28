(** What reading the views of a live database should give. *)
From Verif Require Import GoStr SpecCsv ModelIntrospect ModelViews SpecLive ModelLiveViews.

(** ** Databases *)
Definition views_of (l : list live_relation) : list live_relation := filter (fun x => match lw_kind x with NotAView => false | _ => true end) l.
Definition relation_ok (d : dialect) (x : live_relation) : Prop :=
  named (lw_name x) /\ Forall (fun c => named (lc_name c)) (lw_columns x)
  /\ match d with
     | Postgres => lw_text x = None <-> lw_kind x = NotAView
     | _ => lw_kind x <> MaterializedView /\ lw_comment x = [] /\ lw_columns x <> [] /\ Forall (fun c => lc_enum c = false) (lw_columns x)
     end
  /\ (d = SQLite -> lw_text x <> None).
Definition views_db_ok (d : dialect) (db : views_db) : Prop :=
  d <> Other /\ NoDup (map fst (vd_schemas db))
  /\ forall p, In p (vd_schemas db) ->
       (d = SQLite -> fst p = []) /\ (d <> SQLite -> named (fst p))
       /\ NoDup (map lw_name (snd p)) /\ Forall (relation_ok d) (snd p).

(** ** The catalog *)
Definition asked_views (kinds : list bytes) : Prop := kinds = [] \/ In (B"VIEWS") kinds.
(** The views of a schema that are wanted; [wanted] with the names of views for those of tables. *)
Definition wanted_views (d : dialect) (f : choice) (db : views_db) (s : bytes) : list live_relation :=
  flat_map (fun p => if beqb (fst p) s then filter (fun x => wanted d f s (lw_name x)) (views_of (snd p)) else []) (vd_schemas db).
(** Types of Postgres are compared without regard to case. *)
Definition same_type (d : dialect) (a b : bytes) : Prop := match d with Postgres => to_upper a = to_upper b | _ => a = b end.
(** The view as it is; a single column need not have a type.  The statement of SQLite ends with a semicolon;
    line ends in the style of Windows may become those of Unix. *)
Definition as_it_is (d : dialect) (s : bytes) (x : live_relation) (v : found_view) : Prop :=
  let w := fv_view v in
  vw_schema w = s /\ vw_name w = lw_name x
  /\ vw_columns w = map lc_name (lw_columns x)
  /\ (forall i c, nth_error (lw_columns x) i = Some c -> same_type d (nth i (vw_types w) []) (lc_type c))
  /\ List.length (vw_types w) <= List.length (lw_columns x)
  /\ vw_enums w = map lc_name (filter lc_enum (lw_columns x))
  /\ (fv_materialized v = true <-> lw_kind x = MaterializedView)
  /\ (exists t, lw_text x = Some t /\ lf_of (match d with SQLite => t ++ B";" | _ => t end) (fv_sql v))
  /\ fv_comment v = lw_comment x.
Definition found_in (cat : list shelf) (s : bytes) : list found_view :=
  flat_map (fun p : shelf => if beqb (fst p) s then snd p else []) cat.
Definition views_read (d : dialect) (f : choice) (db : views_db) (cat : list shelf) : Prop :=
  NoDup (map fst cat) /\ (forall p, In p cat -> snd p <> [])
  /\ forall s, Forall2 (as_it_is d s) (wanted_views d f db s) (found_in cat s).

(** ** Databases that are read as they are *)
(** Names that mean the same without quotes: no capitals, dots, white space, no quotation mark in front. *)
Definition blank (c : ascii) : Prop := c = SPACE \/ 9 <= nat_of_ascii c <= 13.
Definition folded (n : bytes) : Prop :=
  (forall c, In c n -> is_upper c = false /\ c <> "."%char /\ ~ blank c) /\ (forall r, n <> ascii_of_nat 34 :: r).
Definition no_bar (n : bytes) : Prop := ~ In "|"%char n.
(** The length of the names in one text with bars between them. *)
Fixpoint text_length (l : list bytes) : nat :=
  match l with [] => 0 | [n] => List.length n | n :: l' => List.length n + 1 + text_length l' end.
Definition fits (d : dialect) (l : list bytes) : Prop :=
  match d with MySQL => text_length l <= 1024 | SQLServer => text_length l <= 4000 | _ => True end.
Definition clear_view (d : dialect) (db : views_db) (s : bytes) (x : live_relation) : Prop :=
  (d = Postgres -> folded s /\ folded (lw_name x) /\ (lw_comment x = [] \/ vd_name db = B"pg_class"))
  /\ (d = SQLite -> lw_broken x = false)
  /\ lw_text x <> None /\ lw_columns x <> []
  /\ Forall (fun c => no_bar (lc_name c) /\ no_bar (lc_type c)) (lw_columns x)
  /\ fits d (map lc_name (lw_columns x)) /\ fits d (map lc_type (lw_columns x)).
Definition clear_views_choice (d : dialect) (f : choice) : Prop :=
  (d <> SQLite -> clear_list (f_schemas f) (f_exschemas f))
  /\ match d with SQLite => f_tables f = [] \/ f_extables f = [] | _ => clear_list (f_tables f) (f_extables f) end.
Definition clear_views (d : dialect) (f : choice) (db : views_db) : Prop :=
  clear_views_choice d f
  /\ (forall p x, In p (vd_schemas db) -> In x (views_of (snd p)) -> clear_names d (fst p) (lw_name x))
  /\ forall s x, In x (wanted_views d f db s) -> clear_view d db s x.
