(** Specification for C123: migrations that are generated one after the other. *)
From Verif Require Import GoStr ModelCatalog ModelDiffSql SpecDiff ModelPrefix.

(** Every call is in a later second than the one before. *)
Definition one_by_one (l : list run) : Prop := ForallOrdPairs (fun r r' => (rn_now r < rn_now r')%Z) l.
(** From the first second of the year 0 to the last of 9999. *)
Definition writable (r : run) : Prop := (-62167219200 <= rn_now r < 253402300800)%Z.
(** No prefix was given. *)
Definition by_time (r : run) : Prop := rn_given r = [].
(** Fewer than a hundred migrations (C41 is false for more). *)
Definition fits (flt : bytes -> bool) (r : run) : Prop := List.length (filter (fun f => negb (fl_undo f)) (written flt r)) < 100.
(** All that was generated, in the order in which it was. *)
Definition everything (flt : bytes -> bool) (l : list run) : directory :=
  flat_map (fun r => map (fun f => (fl_name f, fl_stmts f)) (written flt r)) l.
(** What C65 asks of the two catalogs. *)
Definition usual (r : run) : Prop :=
  unique_tables (ct_schemas (rn_src r)) /\ unique_tables (ct_schemas (rn_dest r))
  /\ readable_types (rn_dialect r) (ct_schemas (rn_src r)) /\ readable_types (rn_dialect r) (ct_schemas (rn_dest r))
  /\ plain_names (ct_schemas (rn_src r)) /\ plain_names (ct_schemas (rn_dest r)) /\ plain (ct_current (rn_src r)).
(** The migrations among the generated files: all but the undo files. *)
Definition migrations (flt : bytes -> bool) (l : list run) : list bytes :=
  flat_map (fun r => map fl_name (filter (fun f => negb (fl_undo f)) (written flt r))) l.
