(** C103: the extensions and types of a dumped Postgres database are created again. *)
From Coq Require Import Permutation Lia.
From Verif Require Import GoStr GoStrFacts ModelSq SpecSql SpecInsert SpecTokens SpecDdl ModelCatalog ModelCache ModelDdl ModelDiff ModelDiffSql
  ModelDdlText SpecDdlText SpecDiff DiffLookup DdlTextWitness DiffWitness SpecApply ApplyFacts ApplyWitness ModelDump SpecLoad LoadTexts LoadDump
  ModelWipe SpecLive ModelExtras SpecExtras SpecTypedLoad ModelTyped TypedTexts TypedLoad PropDump PropExtras.

(** The files schema.sql, indexes.sql and constraints.sql of a dump are loaded into a database without types and
    tables; it then has the extensions, enums, domains and tables that were dumped. *)
Definition C103_claim (builtin : toks -> bool) (db : live) (cat : catalog) (x : tdb) : Prop :=
  exists files y, typed_dump db cat = Ok files /\ run_files builtin (ct_current cat) files x = Some y /\ has_types db cat x y.
(** Even if the tables are those for which C82 holds. *)
Definition C103_full : Prop := forall builtin db cat x,
  live_ok Postgres db -> existing Postgres cat -> regular Postgres cat -> one_database builtin db cat -> without_types x -> C103_claim builtin db cat x.

(** It holds for [regular_types].  Missing: enums without labels or with certain quotes in them, domains without
    checks or with checks that are NOT VALID, domains that come before the types they use, aggregates, and schemas
    whose names begin with pg. *)
Theorem C103_partial : forall builtin db cat x,
  live_ok Postgres db -> existing Postgres cat -> regular Postgres cat -> one_database builtin db cat -> regular_types builtin db cat -> without_types x ->
  C103_claim builtin db cat x.
Proof. intros builtin db cat x OK EX RG OD RY WT. exact (typed_loads builtin db cat OK EX RG OD RY x WT). Qed.

(** ** Deciding the conditions *)
Section Decide.
Context (builtin : toks -> bool) (db : live) (cat : catalog).
Definition domainb (o : live_domain) : bool :=
  negb (is_empty (ld_name o)) && plainb Postgres (ld_name o) && fitsb Postgres clauses (ld_type o)
  && (is_empty (ld_collation o) || beqb (ld_collation o) (ct_collation cat) || plainb Postgres (ld_collation o))
  && (is_empty (ld_default o) || operandb Postgres clauses (ld_default o))
  && forallb (fun c => negb (is_empty (fst (fst c))) && plainb Postgres (fst (fst c)) && fitsb Postgres [] (snd (fst c))) (ld_checks o).
Lemma domainb_ok o : domainb o = true -> writable_domain (ct_collation cat) o.
Proof.
  unfold domainb. intros H. repeat (apply andb_true_iff in H as (H & ?)). split.
  - split; [apply given_ok; assumption|apply plain_now; assumption].
  - apply fitsb_ok. assumption.
  - intros N1 N2. apply orb_true_iff in H2 as [H2|H2]; [|apply plain_now; exact H2]. apply orb_true_iff in H2 as [H2|H2].
    + exfalso. apply N1. apply empty_eq. exact H2.
    + exfalso. apply N2. apply beqb_eq. exact H2.
  - intros N. apply orb_true_iff in H1 as [H1|H1]; [exfalso; apply N; apply empty_eq; exact H1|]. apply operandb_ok. exact H1.
  - intros n e v I. rewrite forallb_forall in H0. specialize (H0 _ I). cbn [fst snd] in H0. repeat (apply andb_true_iff in H0 as (H0 & ?)).
    split; [apply given_ok; assumption|]. split; [apply plain_now; assumption|apply fitsb_ok; assumption].
Qed.
Fixpoint orderlyb (before : list (bytes * bytes)) (l : list typed) : bool :=
  match l with
  | [] => true
  | t :: l' => acceptable builtin (ct_current cat) before (snd t) && orderlyb (before ++ [fst t]) l'
  end.
Lemma orderlyb_ok l : forall before, orderlyb before l = true -> forall l1 t l2, l = l1 ++ t :: l2 -> acceptable builtin (ct_current cat) (before ++ map fst l1) (snd t) = true.
Proof.
  induction l as [|a l IH]; intros before H l1 t l2 E; [destruct l1; discriminate E|]. cbn [orderlyb] in H. apply andb_true_iff in H as (H & H').
  destruct l1 as [|b l1]; cbn [app] in E; injection E as -> ->; cbn [map]; [rewrite app_nil_r; exact H|]. specialize (IH _ H' l1 t l2 eq_refl). rewrite <- app_assoc in IH. exact IH.
Qed.
Definition same_place (p q : bytes * bytes) : bool := beqb (fst p) (fst q) && beqb (snd p) (snd q).
Fixpoint no_twice (l : list (bytes * bytes)) : bool := match l with [] => true | q :: l' => negb (existsb (same_place q) l') && no_twice l' end.
Lemma no_twice_ok l : no_twice l = true -> NoDup l.
Proof.
  induction l as [|q l IH]; intros H; [apply NoDup_nil|]. cbn [no_twice] in H. apply andb_true_iff in H as (H & H'). apply NoDup_cons; [|exact (IH H')].
  intros I. apply negb_true_iff in H. assert (X : existsb (same_place q) l = true); [|congruence]. apply existsb_exists. exists q. split; [exact I|]. unfold same_place. rewrite !beqb_refl. reflexivity.
Qed.
Definition oneb (l : list typed) : bool :=
  let types := live_types (ct_collation cat) db in
  let names := map fst types ++ map (fun e => (fst e, tb_name (snd e))) (catalog_tables cat) in
  forallb (fun h => none (home_types [] h) || bmem (hm_name h) (map sc_name (ct_schemas cat))) (own_homes db)
  && no_twice names
  && orderlyb [] l
  && forallb (fun e : bytes * table => forallb (fun c => available builtin (ct_current cat) (map fst types) (type_of Postgres c)) (tb_columns (snd e))) (catalog_tables cat)
  && forallb (fun h => forallb (fun e => negb (is_empty (en_name (le_enum e))) && plainb Postgres (en_name (le_enum e))) (hm_enums h) && forallb domainb (hm_domains h)) (own_homes db)
  && nodupb (lv_extensions db) && forallb (plainb Postgres) (lv_extensions db).
Lemma oneb_ok l : Permutation l (live_types (ct_collation cat) db) -> oneb l = true -> one_database builtin db cat.
Proof.
  intros P H. unfold oneb in H. repeat (apply andb_true_iff in H as (H & ?)). rewrite forallb_forall in H, H0, H2, H3. split.
  - intros h Ih N. specialize (H h Ih). apply orb_true_iff in H as [H|H]; [destruct (home_types [] h); [contradiction|discriminate]|apply bmem_In; exact H].
  - apply no_twice_ok. assumption.
  - exists l. split; [exact P|]. intros l1 t l2 E. exact (orderlyb_ok l [] H4 l1 t l2 E).
  - intros e c Ie Ic. specialize (H3 e Ie). rewrite forallb_forall in H3. exact (H3 c Ic).
  - intros h e Ih Ie. specialize (H2 h Ih). apply andb_true_iff in H2 as (H2 & _). rewrite forallb_forall in H2. specialize (H2 e Ie). apply andb_true_iff in H2 as (X & Y).
    split; [apply given_ok; exact X|apply plain_now; exact Y].
  - intros h o Ih Io. specialize (H2 h Ih). apply andb_true_iff in H2 as (_ & H2). rewrite forallb_forall in H2. apply domainb_ok. exact (H2 o Io).
  - split; [apply nodupb_ok; assumption|]. intros n In_. apply plain_now. exact (H0 n In_).
Qed.
Fixpoint quotedb (s : bytes) : bool :=
  match s with a :: ((b :: _ :: _) as r) => ceqb a squote && ceqb b squote || quotedb r | _ => false end.
Lemma quoted_there a c b : quotedb (a ++ squote :: squote :: c :: b) = true.
Proof.
  induction a as [|x a IH]; [reflexivity|]. cbn [app]. destruct a as [|y a]; [cbn; destruct (ceqb x squote); reflexivity|].
  cbn [app] in *. destruct a as [|z a]; cbn [app] in *; cbn [quotedb] in *; rewrite IH; apply orb_true_r.
Qed.
Lemma quotedb_ok s : quotedb s = false -> plain_label s.
Proof. intros H (a & c & b & E). rewrite E, quoted_there in H. discriminate H. Qed.
Definition regular_typesb : bool :=
  forallb (fun h => forallb (fun e => negb (none (en_labels (le_enum e))) && forallb (fun s => negb (quotedb s)) (en_labels (le_enum e))) (hm_enums h)
    && forallb (fun o => negb (none (ld_checks o)) && forallb snd (ld_checks o)) (hm_domains h)
    && forallb (fun r => lr_extension r || match lr_kind r with Aggregate => false | _ => true end) (hm_routines h)) (own_homes db)
  && orderlyb [] (listed_types db cat).
Lemma regular_typesb_ok : regular_typesb = true -> (forall h, In h (lv_homes db) -> no_wildcard (B"pg") (hm_name h)) -> regular_types builtin db cat.
Proof.
  intros H NW. unfold regular_typesb in H. apply andb_true_iff in H as (H & O). rewrite forallb_forall in H. 
  assert (A : forall h, In h (own_homes db) ->
    (forall e, In e (hm_enums h) -> negb (none (en_labels (le_enum e))) && forallb (fun s => negb (quotedb s)) (en_labels (le_enum e)) = true)
    /\ (forall o, In o (hm_domains h) -> negb (none (ld_checks o)) && forallb snd (ld_checks o) = true)
    /\ (forall r, In r (hm_routines h) -> lr_extension r || match lr_kind r with Aggregate => false | _ => true end = true)).
  { intros h Ih. specialize (H h Ih). apply andb_true_iff in H as (H & H3). apply andb_true_iff in H as (H1 & H2). rewrite forallb_forall in H1, H2, H3. auto. }
  split.
  - intros h e Ih Ie. destruct (A h Ih) as (X & _). specialize (X e Ie). apply andb_true_iff in X as (X & Y). split; [destruct (en_labels (le_enum e)); [discriminate X|discriminate]|].
    intros s Is. rewrite forallb_forall in Y. specialize (Y s Is). apply negb_true_iff in Y. apply quotedb_ok. exact Y.
  - intros h o Ih Io. destruct (A h Ih) as (_ & X & _). specialize (X o Io). apply andb_true_iff in X as (X & Y). split; [destruct (ld_checks o); [discriminate X|discriminate]|].
    intros c Ic. rewrite forallb_forall in Y. exact (Y c Ic).
  - intros l1 t l2 E. exact (orderlyb_ok _ [] O l1 t l2 E).
  - intros h r Ih Ir X K. destruct (A h Ih) as (_ & _ & Y). specialize (Y r Ir). rewrite X, K in Y. discriminate Y.
  - exact NW.
Qed.
(** The files can be loaded. *)
Definition reloads (x : tdb) : option tdb := match typed_dump db cat with Ok files => run_files builtin (ct_current cat) files x | _ => None end.
Lemma reload x : reloads x = None -> ~ C103_claim builtin db cat x.
Proof. unfold reloads. intros H (files & y & E & R & _). rewrite E, R in H. discriminate H. Qed.
Lemma reload_other x z : reloads x = Some z -> ~ Permutation (t_types z) (live_types (ct_collation cat) db) -> ~ C103_claim builtin db cat x.
Proof. unfold reloads. intros H N (files & y & E & R & _ & P & _). rewrite E, R in H. injection H as <-. exact (N P). Qed.
End Decide.

(** ** A database that is created again *)
(** The types of the system begin with these words. *)
Definition system_type (ts : toks) : bool :=
  match ts with Word w :: _ => bmem w (map B ["INT"; "TEXT"; "VARCHAR"; "DATE"; "NUMERIC"]%string) | _ => false end.
(** A cinema with ratings, prices in two currencies and a schema of prizes. *)
Definition money : live :=
  Live (B"cinema") [B"citext"; B"uuid-ossp"]
    [Home (B"db") [LiveEnum (Enum (B"rating") [B"G"; B"PG-13"; B"it's"; []]) []]
       [LiveDomain (B"price") (B"numeric(8,2)") [] true (B"0") [(B"price_check", B"VALUE >= 0", true)] [];
        LiveDomain (B"price in EUR") (B"price") [] false [] [(B"low", B"VALUE < 100", true); (B"high ""x", B"VALUE > 1", true)] []]
       [sum_of (B"add") (B"a integer")];
     Home (B"prizes") [] [LiveDomain (B"name") (B"text") (B"en_US") false (B"'x'") [(B"c1", B"VALUE ~ '@'", true)] []] [];
     Home (B"pg_catalog") [LiveEnum (Enum (B"odd") []) []] [] [sum_of (B"max") []]].
Definition in_domain (s t n ty domain : bytes) : column :=
  Column s t n ty [] [] [] domain false true false false false [] [] false false [] false [] false.
Definition ticket : table :=
  a_table (B"db") (B"ticket")
    [col (B"db") (B"ticket") (B"id") (B"INT") true []; col (B"db") (B"ticket") (B"rating") (B"rating") false (B"'G'"); in_domain (B"db") (B"ticket") (B"price") (B"numeric(8,2)") (B"""price in EUR""");
     col (B"db") (B"ticket") (B"holder") (B"prizes.name") false []]
    [pkey Postgres (B"db") (B"ticket") (B"id")] [].
Definition box_office : catalog :=
  database Postgres [Schema (B"db") (ticket :: flat_map sc_tables (firstn 1 (ct_schemas (cinema Postgres)))) false; Schema (B"prizes") [award2 Postgres] false].
Definition fresh_db : tdb := TDb [B"plpgsql"; B"citext"] [] (LDb [B"db"] []).
Ltac solve_one := apply (oneb_ok _ _ _ _ (Permutation_refl _)); vm_compute; reflexivity.
Ltac solve_wild := intros h Ih; cbn in Ih; repeat (destruct Ih as [<-|Ih]; [vm_compute; first [discriminate|right; reflexivity]|]); contradiction.
Example C103_example :
  live_ok Postgres money /\ existing Postgres box_office /\ regular Postgres box_office /\ one_database system_type money box_office /\ regular_types system_type money box_office
  /\ without_types fresh_db /\ C103_claim system_type money box_office fresh_db.
Proof.
  assert (H1 : live_ok Postgres money) by solve_live.
  assert (H2 : existing Postgres box_office) by (apply existingb_ok; vm_compute; reflexivity).
  assert (H3 : regular Postgres box_office) by (apply regularb_ok; vm_compute; reflexivity).
  assert (H4 : one_database system_type money box_office) by solve_one.
  assert (H5 : regular_types system_type money box_office) by (apply regular_typesb_ok; [vm_compute; reflexivity|solve_wild]).
  assert (H6 : without_types fresh_db) by (split; reflexivity).
  repeat (split; [assumption|]). apply C103_partial; assumption.
Qed.
(** What it is then. *)
Example C103_example_types : exists y, reloads system_type money box_office fresh_db = Some y
  /\ t_extensions y = [B"plpgsql"; B"citext"; B"uuid-ossp"]
  /\ map fst (t_types y) = [(B"db", B"rating"); (B"db", B"price"); (B"db", B"price in EUR"); (B"prizes", B"name")]
  /\ map lt_place (l_tables (t_rest y)) = [(B"db", B"ticket"); (B"db", B"film"); (B"db", B"actor"); (B"db", B"language"); (B"prizes", B"award")].
Proof. eexists. split; [vm_compute; reflexivity|]. repeat split; reflexivity. Qed.

(** ** The claim as such does not hold *)
(** Databases with types only. *)
Definition bare (l : list bytes) : catalog := database Postgres (map (fun s => Schema s [] false) l).
Definition only (l : list home) : live := Live (B"db") [] l.
Definition code (n ty : bytes) (checks : list (bytes * bytes * bool)) : live_domain := LiveDomain n ty [] false [] checks [].
Definition positive (n : bytes) : bytes * bytes * bool := (n, B"VALUE > 0", true).
Definition labelled (n : bytes) (l : list bytes) : live_enum := LiveEnum (Enum n l) [].
(** A domain without checks. *)
Definition unlimited : live := only [Home (B"db") [] [code (B"code") (B"text") []] []].
(** A check that is not yet valid. *)
Definition lax : live := only [Home (B"db") [] [code (B"code") (B"text") [(B"code_check", B"VALUE <> ''", false)]] []].
(** A domain that uses one with a later name, and one that uses an enum of a later schema. *)
Definition based : live := only [Home (B"db") [] [code (B"age") (B"number") [positive (B"a")]; code (B"number") (B"numeric(8,2)") [positive (B"b")]] []].
Definition based_elsewhere : live := only [Home (B"db") [] [code (B"state") (B"people.mood") [(B"c", B"VALUE <> 'sad'", true)]] []; Home (B"people") [labelled (B"mood") [B"sad"; B"ok"]] [] []].
(** An aggregate. *)
Definition summed : live := only [Home (B"db") [] [] [LiveRoutine (B"total") (B"a integer") Aggregate [] (B"integer") None [] true ([], [], []) false]].
(** Labels with quotes, and an enum without labels. *)
Definition odd_labels : live := only [Home (B"db") [labelled (B"mood") [B"it''s"; B"ok"]] [] []].
Definition no_labels : live := only [Home (B"db") [labelled (B"nothing") []] [] []].
(** A schema whose name begins with pg. *)
Definition page : live := only [Home (B"pgapp") [labelled (B"mood") [B"sad"; B"ok"]] [] []].
Definition empty_db : tdb := TDb [] [] (LDb [] []).
Ltac solve_rest := split; [solve_live|]; split; [apply existingb_ok; vm_compute; reflexivity|]; split; [apply regularb_ok; vm_compute; reflexivity|].

(** The files are refused: a domain without checks is written with "CHECK"; the order is that of the schemas and
    of the names, not that of their use.  With an aggregate there are no files at all. *)
Theorem C103_refused : forall e, In e [(unlimited, [B"db"]); (based, [B"db"]); (based_elsewhere, [B"db"; B"people"]); (summed, [B"db"])] ->
  live_ok Postgres (fst e) /\ existing Postgres (bare (snd e)) /\ regular Postgres (bare (snd e)) /\ one_database system_type (fst e) (bare (snd e))
  /\ reloads system_type (fst e) (bare (snd e)) empty_db = None.
Proof.
  intros e H. repeat (destruct H as [<-|H]; [solve_rest; split; [|vm_compute; reflexivity]; first [solve_one|apply (oneb_ok _ _ _ _ (Permutation_sym (Permutation_rev _))); vm_compute; reflexivity]|]). destruct H.
Qed.
(** The types are not all there: two quotes in a label become one, "NOT VALID" is written as a part of the
    expression (which Postgres refuses, but expressions are not looked into here), enums without labels are left
    out and so are the types of schemas whose names begin with pg. *)
Theorem C103_lost : forall e, In e [(odd_labels, [B"db"]); (lax, [B"db"]); (no_labels, [B"db"]); (page, [B"pgapp"])] ->
  live_ok Postgres (fst e) /\ existing Postgres (bare (snd e)) /\ regular Postgres (bare (snd e)) /\ one_database system_type (fst e) (bare (snd e))
  /\ exists y, reloads system_type (fst e) (bare (snd e)) empty_db = Some y /\ ~ Permutation (t_types y) (live_types [] (fst e)).
Proof.
  intros e H. repeat (destruct H as [<-|H]; [solve_rest; split; [solve_one|]; eexists; (split; [vm_compute; reflexivity|])|]); [| | | |destruct H]; intros P; cbn in P.
  - apply Permutation_length_1 in P. discriminate P.
  - apply Permutation_length_1 in P. discriminate P.
  - apply Permutation_nil in P. discriminate P.
  - apply Permutation_nil in P. discriminate P.
Qed.
Theorem C103_refuted : ~ C103_full.
Proof.
  intros H. destruct (C103_refused (unlimited, [B"db"]) (or_introl eq_refl)) as (H1 & H2 & H3 & H4 & H5).
  exact (reload _ _ _ _ H5 (H system_type unlimited (bare [B"db"]) empty_db H1 H2 H3 H4 (conj eq_refl eq_refl))).
Qed.

Print Assumptions C103_partial.
Print Assumptions C103_refused.
Print Assumptions C103_lost.
Print Assumptions C103_refuted.
