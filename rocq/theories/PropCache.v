(** Properties C34, C62 and C63: the catalog cache. *)
From Verif Require Import GoStr GoStrFacts ModelCatalog ModelCache SpecCache CacheFacts CopyFacts.

(** ** C34: lookups after any sequence of calls *)
(** Missing from the full claim: tables that are ignored or replaced, and the lookup of
    constraints without a name. *)
Theorem C34_lookups_partial : forall schemas l, distinct_names schemas -> all_careful (new_state schemas) l ->
  exists st, steps (new_state schemas) l = Ok st /\ right_lookups st /\ st_schemas st = fold_left after l schemas.
Proof. exact cache_lookups. Qed.
Print Assumptions C34_lookups_partial.

(** A table that was ignored leaves its columns in the cache: when it is created again the
    lookup of a column reads outside of its list.  The same happens when a table is
    replaced by one with fewer columns.  Constraints without a name are taken for the same. *)
Theorem C34_refuted :
  (exists l, steps (new_state []) l = Panic)
  /\ (exists st l t, steps (new_state []) l = Ok st
        /\ (exists sc, In sc (st_schemas st) /\ In t (sc_tables sc))
        /\ get_column (st_cache st) t (B"a") = Panic)
  /\ (exists st, steps (new_state []) [(B"s", CConstraint (B"t") [] UNIQUE [B"a"]); (B"s", CConstraint (B"t") [] CHECK [])] = Ok st
        /\ map (fun sc => map (fun t => map con_type (tb_constraints t)) (sc_tables sc)) (st_schemas st) = [[[UNIQUE]]]).
Proof.
  split; [|split].
  - exists [(B"s", CTable (B"t")); (B"s", CColumn (B"t") (B"a") (B"INT"));
            (B"s", CIgnoreTable (B"t")); (B"s", CColumn (B"t") (B"a") (B"INT"))].
    vm_compute. reflexivity.
  - set (l := [(B"s", CColumn (B"t") (B"a") (B"INT")); (B"s", CSetTable (Table [] (B"t") [] false [] [] [] false))]).
    set (t := Table (B"s") (B"t") [] false [] [] [] false).
    destruct (steps (new_state []) l) as [st| |] eqn:E; [|discriminate E|discriminate E].
    exists st, l, t. split; [exact E|]. injection E as <-. split.
    + exists (Schema (B"s") [t] false). cbn. auto.
    + vm_compute. reflexivity.
  - destruct (steps (new_state []) [(B"s", CConstraint (B"t") [] UNIQUE [B"a"]); (B"s", CConstraint (B"t") [] CHECK [])])
      as [st| |] eqn:E; [|discriminate E|discriminate E].
    exists st. split; [reflexivity|]. injection E as <-. reflexivity.
Qed.
Print Assumptions C34_refuted.

Definition film : list schema :=
  [Schema (B"public") [
     Table (B"public") (B"film") [] false
       [new_column (Table (B"public") (B"film") [] false [] [] [] false) (B"film_id") (B"INT");
        new_column (Table (B"public") (B"film") [] false [] [] [] false) (B"title") (B"TEXT")]
       [new_constraint (Table (B"public") (B"film") [] false [] [] [] false) (B"film_pkey") PRIMARY_KEY [B"film_id"];
        new_constraint (Table (B"public") (B"film") [] false [] [] [] false) [] CHECK [];
        new_constraint (Table (B"public") (B"film") [] false [] [] [] false) [] CHECK []] [] false] false].
Definition film_calls : list (bytes * call) :=
  [(B"public", CSetTable (Table [] (B"actor") [] false [] [] [] false));
   (B"public", CColumn (B"actor") (B"actor_id") (B"INT"));
   (B"public", CColumn (B"film") (B"actor_id") (B"INT"));
   (B"public", CSetConstraint (B"film") (new_constraint (Table [] [] [] false [] [] [] false) (B"film_actor_id_fkey") FOREIGN_KEY [B"actor_id"]));
   (B"other", CIndex (B"film") (B"film_idx") [B"title"]);
   (B"public", CSetConstraint (B"film") (new_constraint (Table [] [] [] false [] [] [] false) (B"film_pkey") PRIMARY_KEY [B"title"]))].
Lemma film_distinct : distinct_names film.
Proof.
  assert (N : forall l, (if list_eq_dec (list_eq_dec Ascii.ascii_dec) (nodup (list_eq_dec Ascii.ascii_dec) l) l then true else false) = true -> NoDup l).
  { intros l H. destruct (list_eq_dec (list_eq_dec Ascii.ascii_dec) (nodup (list_eq_dec Ascii.ascii_dec) l) l) as [E|E]; [|discriminate].
    rewrite <- E. apply NoDup_nodup. }
  split; [apply N; reflexivity|]. constructor; [|constructor]. split; [reflexivity|]. split; [apply N; reflexivity|].
  constructor; [|constructor]. repeat split; apply N; reflexivity.
Qed.
Example C34_example_hypotheses : distinct_names film /\ all_careful (new_state film) film_calls.
Proof.
  split; [exact film_distinct|]. cbn [all_careful film_calls].
  split; [|intros st1 _; repeat (split; [first [exact I|intro Z; discriminate Z]|intros ? _]); exact I].
  repeat split. intros sc Hsc N H. cbn in Hsc. destruct Hsc as [<-|[]].
  vm_compute in H. destruct H as [H|[]]. discriminate H.
Qed.
Example C34_example :
  match steps (new_state film) film_calls with
  | Ok st =>
      match st_schemas st with
      | [public; other] =>
          match sc_tables public with
          | [f; a] => get_column (st_cache st) f (B"actor_id") = Ok (Some 2)
                      /\ get_constraint (st_cache st) f (B"film_actor_id_fkey") = Ok (Some 3)
                      /\ get_column (st_cache st) a (B"title") = Ok None
                      /\ List.length (tb_constraints f) = 4
          | _ => False
          end
      | _ => False
      end
  | _ => False
  end.
Proof. vm_compute. repeat split. Qed.

(** ** C62: the keys of a table *)
(** Missing from the full claim: constraints whose type changes. *)
Theorem C62_keys_partial : forall schemas l, distinct_names schemas -> all_careful (new_state schemas) l ->
  all_keep_types (new_state schemas) l ->
  exists st, steps (new_state schemas) l = Ok st /\ right_keys st.
Proof. exact cache_keys. Qed.
Print Assumptions C62_keys_partial.

(** When AddOrUpdateConstraint changes the type of a constraint, the lists of keys stay as they are. *)
Theorem C62_refuted : exists l st,
  steps (new_state []) l = Ok st /\
  exists sc t x, In sc (st_schemas st) /\ In t (sc_tables sc) /\ tb_constraints t = [x]
    /\ con_type x = FOREIGN_KEY /\ con_ignore x = false
    /\ get_foreign_keys (st_cache st) t = Ok [] /\ get_primary_key (st_cache st) t = Ok (Some 0).
Proof.
  set (t0 := Table (B"s") (B"t") [] false [] [] [] false).
  set (l := [(B"s", CConstraint (B"t") (B"c") PRIMARY_KEY [B"a"]);
             (B"s", CSetConstraint (B"t") (new_constraint t0 (B"c") FOREIGN_KEY [B"a"]))]).
  destruct (steps (new_state []) l) as [st| |] eqn:E; [|discriminate E|discriminate E].
  exists l, st. split; [exact E|]. injection E as <-.
  set (x := new_constraint t0 (B"c") FOREIGN_KEY [B"a"]).
  set (t := Table (B"s") (B"t") [] false [] [x] [] false).
  exists (Schema (B"s") [t] false), t, x. cbn [st_schemas st_cache].
  split; [left; vm_compute; reflexivity|]. split; [left; reflexivity|].
  repeat split; vm_compute; reflexivity.
Qed.
Print Assumptions C62_refuted.

Example C62_example_hypotheses : distinct_names film /\ all_careful (new_state film) film_calls
  /\ all_keep_types (new_state film) film_calls.
Proof.
  destruct C34_example_hypotheses as (H1 & H2). split; [exact H1|]. split; [exact H2|].
  unfold film_calls. cbn [all_keep_types].
  do 3 (split; [exact I|let R := fresh "R" in intros st R; vm_compute in R; injection R as <-]).
  split; [|let R := fresh "R" in intros st R; vm_compute in R; injection R as <-].
  - intros _ sc tb y Hsc _ Htb _ Hy Ny _. cbn in Hsc. destruct Hsc as [<-|[]]. cbn in Htb.
    destruct Htb as [<-|[<-|[]]]; cbn in Hy; [|contradiction].
    destruct Hy as [<-|[<-|[<-|[]]]]; discriminate Ny.
  - split; [exact I|let R := fresh "R" in intros st R; vm_compute in R; injection R as <-].
    split; [|intros; exact I].
    intros _ sc tb y Hsc _ Htb _ Hy Ny _. cbn in Hsc. destruct Hsc as [<-|[<-|[]]]; cbn in Htb.
    + destruct Htb as [<-|[<-|[]]]; cbn in Hy; [|contradiction].
      destruct Hy as [<-|[<-|[<-|[<-|[]]]]]; try discriminate Ny. reflexivity.
    + destruct Htb as [<-|[]]; cbn in Hy. contradiction.
Qed.

(** ** C63: WriteCatalog copies the catalog *)
(** Missing from the full claim: virtual tables and constraints without a name. *)
Theorem C63_copy_partial : forall src, copyable src -> no_virtual src -> write_catalog [] src = Ok src.
Proof. exact catalog_equal. Qed.
Print Assumptions C63_copy_partial.

(** The copy of a virtual table is not virtual, and of several constraints without a name
    only one is left. *)
Theorem C63_refuted :
  (exists src dest, distinct_names src /\ write_catalog [] src = Ok dest
     /\ map (fun s => map tb_virtual (sc_tables s)) src = [[true]]
     /\ map (fun s => map tb_virtual (sc_tables s)) dest = [[false]])
  /\ (exists src dest, distinct_names src /\ write_catalog [] src = Ok dest /\ no_virtual src
     /\ map (fun s => map (fun t => map con_check (tb_constraints t)) (sc_tables s)) src = [[[B"a > 0"; B"b > 0"]]]
     /\ map (fun s => map (fun t => map con_check (tb_constraints t)) (sc_tables s)) dest = [[[B"b > 0"]]]).
Proof.
  split.
  - set (t := Table [] (B"t") [] true [] [] [] false).
    exists [Schema [] [t] false], [Schema [] [plain_copy t] false].
    split; [|split; [reflexivity|split; reflexivity]].
    split; [repeat constructor; cbn; tauto|]. constructor; [|constructor].
    split; [reflexivity|]. split; [repeat constructor; cbn; tauto|].
    constructor; [|constructor]. repeat split; constructor.
  - set (x := fun e : bytes => Constraint [] (B"t") [] CHECK [] [] [] [] [] [] [] e [] [] [] false false false false false).
    set (t := fun l => Table [] (B"t") [] false [] l [] false).
    exists [Schema [] [t [x (B"a > 0"); x (B"b > 0")]] false], [Schema [] [t [x (B"b > 0")]] false].
    split; [|split; [reflexivity|split; [|split; reflexivity]]].
    + split; [repeat constructor; cbn; tauto|]. constructor; [|constructor].
      split; [reflexivity|]. split; [repeat constructor; cbn; tauto|].
      constructor; [|constructor]. repeat split; constructor.
    + intros sc t' [<-|[]] [<-|[]]. reflexivity.
Qed.
Print Assumptions C63_refuted.

Definition film_two : list schema :=
  map (fun s => Schema (sc_name s) (map (fun t => with_constraints t (firstn 2 (tb_constraints t))) (sc_tables s)) true) film.
Example C63_example : copyable film_two /\ no_virtual film_two /\ List.length (all_tables film_two) = 1.
Proof.
  split; [|split].
  - destruct film_distinct as (N & F). inversion F as [|u v (F1 & F2 & F3) _]; subst.
    inversion F3 as [|u v (G1 & G2 & G3 & G4 & G5) _]; subst.
    split; [exact N|]. constructor; [|constructor]. split; [exact F2|]. constructor; [|constructor].
    split; [reflexivity|]. split; [exact G3|]. split; [|exact G5].
    cbn. constructor; [cbn; intros [Z|[]]; discriminate Z|]. constructor; [cbn; tauto|constructor].
  - intros sc t [<-|[]] [<-|[]]. reflexivity.
  - reflexivity.
Qed.
