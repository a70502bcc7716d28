(** What several databases give together: a table is as in the last one that has it. *)
From Verif Require Import GoStr ModelCatalog ModelIntrospect SpecCache SpecLive.

Definition holds (cat : list schema) (s : bytes) (t : table) : Prop :=
  exists sc, In sc cat /\ sc_name sc = s /\ In t (sc_tables sc).
Definition has_named (cat : list schema) (s n : bytes) : Prop := exists t, holds cat s t /\ tb_name t = n.
Definition asked (d : dialect) (source : choice * database) : list schema := want d (fst source) (snd source).
Definition from_last (d : dialect) (sources : list (choice * database)) (s : bytes) (t : table) : Prop :=
  exists a x b, sources = a ++ x :: b /\ holds (asked d x) s t
    /\ forall y, In y b -> ~ has_named (asked d y) s (tb_name t).
Definition combined (d : dialect) (sources : list (choice * database)) (cat : list schema) : Prop :=
  distinct_names cat /\ forall s t, holds cat s t <-> from_last d sources s t.
(** No table that is asked for in the second database, of whatever kind, has the name of one of the first. *)
Definition in_way (d : dialect) (y : choice * database) (s n : bytes) : Prop :=
  exists l x, In l (snd y) /\ In x (snd l) /\ fst l = s /\ tb_name (lv_table x) = n /\ wanted d (fst y) s n = true.
Definition apart (d : dialect) (x y : choice * database) : Prop :=
  forall s n, has_named (asked d x) s n -> ~ in_way d y s n.
