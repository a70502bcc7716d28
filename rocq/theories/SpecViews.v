(** What the declaration of a view struct says, after sqddl.md:1103-1115: the names of the view
    and of the columns are those of the struct and of its fields in lower case, unless they are
    given by a tag; a name with a dot is that of a schema and that of the view. *)
From Verif Require Import GoStr ModelGoTag ModelParser SpecGo SpecStructs ModelStructs ModelViews.

Definition said_name (go : bytes) (tag : option bytes) : bytes :=
  match tag with
  | None => to_lower go
  | Some lit =>
      match go_unquote lit with
      | Some s => match tag_get (B"sq") s with [] => to_lower go | n => n end
      | None => to_lower go
      end
  end.
(** The view of a name: in a schema, or in the current one. *)
Definition named_view (cur n : bytes) (schema name : bytes) : Prop :=
  (n = schema ++ B"." ++ name /\ ~ In "."%char schema) \/ (n = name /\ ~ In "."%char name /\ schema = cur).
Definition lives_in (cur : bytes) (v : view) : bytes := match vw_schema v with [] => cur | s => s end.
Definition says_column (f : go_field) (c : bytes) : Prop := exists n, gf_names f = [n] /\ said_name n (gf_tag f) = c.
Definition describes (cur : bytes) (g : go_struct) (v : view) : Prop :=
  exists first fields, gs_fields g = first :: fields /\ gf_names first = [] /\ gf_type first = Selector (B"sq") (B"ViewStruct") /\
    named_view cur (said_name (gs_name g) (gf_tag first)) (lives_in cur v) (vw_name v) /\
    Forall2 says_column fields (vw_columns v).
(** Go code that declares the views: no name is declared twice. *)
Definition declares (cur text : bytes) (views : list view) : Prop :=
  exists gs, go_declarations text = Some gs /\ NoDup (map gs_name gs) /\
    Forall (fun g => NoDup (flat_map gf_names (gs_fields g))) gs /\ Forall2 (describes cur) gs views.
(** What suffices: names that are Go identifiers once they are in upper case and their spaces are
    underscores, and different ones; columns whose names have neither capitals nor spaces. *)
Definition simple (c : bytes) : Prop := forall x, In x c -> is_upper x = false /\ x <> SPACE.
Definition presentable (views : list view) : Prop :=
  Forall (fun v => go_word (vw_name v) /\ ~ In backtick (vw_schema v) /\ ~ In "."%char (vw_schema v) /\
                   Forall go_word (vw_columns v) /\ NoDup (map go_name (vw_columns v))) views /\
  NoDup (map (fun v => go_name (vw_name v)) views).
