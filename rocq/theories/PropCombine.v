(** C101: several databases are combined. *)
From Verif Require Import GoStr ModelCatalog ModelCache ModelIntrospect SpecCache SpecLive PropIntrospect ModelCombine SpecCombine CombineFacts CombineTwice.

(** Reading the databases one after the other into a catalog gives the tables of all of them; of a table that
    several of them have, the one that was read last. *)
Definition C101_claim (d : dialect) (sources : list (choice * database)) : Prop :=
  exists r, read_all d sources [] = Ok r /\ combined d sources r.
Definition C101_full : Prop :=
  forall d sources, (forall x, In x sources -> database_ok d (snd x) /\ clear d (fst x) (snd x)) -> C101_claim d sources.

(** It holds if no table is in two of them.  Missing: databases that have tables of the same name. *)
Theorem C101_partial : forall d sources, (forall x, In x sources -> database_ok d (snd x) /\ clear d (fst x) (snd x)) ->
  ForallOrdPairs (apart d) sources -> C101_claim d sources.
Proof. exact combined_apart. Qed.

(** A database that is given twice is never read: there is a panic. *)
Theorem C101_twice : forall d f db s t, database_ok d db -> clear d f db -> holds (asked d (f, db)) s t -> tb_columns t <> [] ->
  read_all d [(f, db); (f, db)] [] = Panic.
Proof. intros d f db s t OK CL. apply read_twice; assumption. Qed.

(** ** Tables of the same name *)
Definition one (cols : list bytes) : database :=
  [(B"public", [tab (B"public") (B"t") (map (fun n => col (B"public") (B"t") n INT) cols) [] []])].
Definition ab : database := one [B"a"; B"b"].
Definition ca : database := one [B"c"; B"a"].
Lemma ab_ok : database_ok Postgres ab /\ clear Postgres all ab.
Proof. split; [solve_ok|solve_clear; discriminate]. Qed.
Lemma ca_ok : database_ok Postgres ca /\ clear Postgres all ca.
Proof. split; [solve_ok|solve_clear; discriminate]. Qed.
Theorem C101_refuted : ~ C101_full.
Proof.
  intro H. destruct (H Postgres [(all, ab); (all, ab)]) as (r & R & _).
  { intros x [<-|[<-|[]]]; exact ab_ok. }
  vm_compute in R. discriminate R.
Qed.
(** The second database has the columns c and a; of these c is lost. *)
Theorem C101_refuted_lost : (database_ok Postgres ab /\ clear Postgres all ab) /\ (database_ok Postgres ca /\ clear Postgres all ca)
  /\ (exists r, read_all Postgres [(all, ab); (all, ca)] [] = Ok r
        /\ map (fun s => (sc_name s, map (fun t => (tb_name t, map col_name (tb_columns t))) (sc_tables s))) r = [(B"public", [(B"t", [B"a"])])])
  /\ ~ C101_claim Postgres [(all, ab); (all, ca)].
Proof.
  split; [exact ab_ok|]. split; [exact ca_ok|]. split; [eexists; split; vm_compute; reflexivity|].
  intros (r & R & _ & C). vm_compute in R. injection R as <-.
  set (T := want_table ca (lv_table (tab (B"public") (B"t") (map (fun n => col (B"public") (B"t") n INT) [B"c"; B"a"]) [] []))).
  assert (F : from_last Postgres [(all, ab); (all, ca)] (B"public") T).
  { exists [(all, ab)], (all, ca), []. split; [reflexivity|]. split; [|intros y []]. exists (Schema (B"public") [T] false). split; [left; reflexivity|]. split; [reflexivity|left; reflexivity]. }
  apply C in F as (sc & [<-|[]] & _ & [F|[]]). vm_compute in F. discriminate F.
Qed.

(** ** Databases that are combined *)
Definition more : database :=
  [(B"shop", [tab (B"shop") (B"extra") [col (B"shop") (B"extra") (B"id") INT; col (B"shop") (B"extra") (B"customer") INT]
      [con (B"shop") (B"extra") (B"extra_pkey") PRIMARY_KEY [B"id"] [] [] [] []] []]);
   (B"log", [tab (B"log") (B"item") [col (B"log") (B"item") (B"at") INT] [] [ix (B"log") (B"item") (B"item_at") [B"at"] [] []]])].
Definition two : list (choice * database) := [(mine, shops Postgres id_name (B"lower(c)")); (all, more)].
Lemma more_ok : database_ok Postgres more /\ clear Postgres all more.
Proof. split; [solve_ok|solve_clear; try discriminate; try no_same_name]; vm_compute; intuition discriminate. Qed.
Lemma two_ok : forall x, In x two -> database_ok Postgres (snd x) /\ clear Postgres (fst x) (snd x).
Proof. intros x [<-|[<-|[]]]; [exact pg_ok|exact more_ok]. Qed.
Lemma two_apart : ForallOrdPairs (apart Postgres) two.
Proof.
  repeat constructor. intros s n (t & (sc & Hsc & E & Ht) & N) (l & x & Hl & Hx & E' & N' & _).
  vm_compute in Hsc. destruct Hsc as [<-|[]]. vm_compute in E. subst s. vm_compute in Hl. destruct Hl as [<-|[<-|[]]]; [|discriminate E'].
  vm_compute in Hx. destruct Hx as [<-|[]]. vm_compute in Ht. destruct Ht as [<-|[<-|[]]]; vm_compute in N, N'; congruence.
Qed.
Example C101_example : C101_claim Postgres two
  /\ exists r, read_all Postgres two [] = Ok r
     /\ map (fun s => (sc_name s, map (fun t => (tb_name t, map (fun c => (col_name c, col_pkey c)) (tb_columns t), map ix_name (tb_indexes t))) (sc_tables s))) r
        = [(B"shop", [(B"customer", [(B"id", true); (B"email", false)], []);
                      (B"item", [(B"a", false); (B"b", false); (B"c", false)], [B"item_idx"]);
                      (B"extra", [(B"id", true); (B"customer", false)], [])]);
           (B"log", [(B"item", [(B"at", false)], [B"item_at"])])].
Proof.
  split; [apply C101_partial; [exact two_ok|exact two_apart]|]. eexists. split; vm_compute; reflexivity.
Qed.
Example C101_twice_example : read_all Postgres [(all, more); (all, more)] [] = Panic.
Proof.
  destruct more_ok as (O & C). eapply (C101_twice Postgres all more (B"log")); [exact O|exact C| |].
  - eexists. split; [right; left; reflexivity|]. split; [reflexivity|left; reflexivity].
  - discriminate.
Qed.
Print Assumptions C101_partial.
Print Assumptions C101_twice.
Print Assumptions C101_refuted.
Print Assumptions C101_refuted_lost.
