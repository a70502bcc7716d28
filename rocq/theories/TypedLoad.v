(** Loading the files of a dump with extensions and types. *)
From Coq Require Import Permutation Lia.
From Verif Require Import GoStr GoStrFacts SpecSql SpecInsert SpecTokens SpecDdl ModelCatalog ModelCache ModelDdl ModelDiff ModelDiffSql
  ModelDdlText SpecDdlText DdlStatements SpecDiff DiffLookup SpecApply ApplyFacts ModelDump SpecLoad LoadTexts LoadRun LoadTables LoadDump
  ModelWipe SpecLive ModelExtras SpecExtras ExtrasFacts ModelTyped SpecTypedLoad TypedTexts.

Lemma flat_filter {A C} (p : A -> bool) (f : A -> list C) l : flat_map f (filter p l) = flat_map (fun a => if p a then f a else []) l.
Proof. induction l as [|a l IH]; [reflexivity|]. cbn [filter flat_map]. destruct (p a); cbn [flat_map]; rewrite IH; reflexivity. Qed.
Lemma flat_swap {A C X} (f : A -> C -> list X) l m : Permutation (flat_map (fun a => flat_map (f a) m) l) (flat_map (fun c => flat_map (fun a => f a c) l) m).
Proof.
  induction l as [|a l IH]; cbn [flat_map].
  - induction m as [|c m IH]; [constructor|exact IH].
  - rewrite IH. symmetry. apply flat_map_split.
Qed.
Lemma filter_filter {A} (p q : A -> bool) l : filter p (filter q l) = filter (fun a => q a && p a) l.
Proof. induction l as [|a l IH]; [reflexivity|]. cbn [filter]. destruct (q a); cbn [andb filter]; rewrite IH; reflexivity. Qed.

Lemma flat_nothing {X} n l : flat_map (fun s => if beqb n (sc_name s) then @nil X else []) l = [].
Proof. induction l as [|s l IH]; [reflexivity|]. cbn [flat_map]. rewrite IH. destruct (beqb _ _); reflexivity. Qed.
Lemma flat_once {X} n (ty : list X) l : NoDup (map sc_name l) -> In n (map sc_name l) -> flat_map (fun s => if beqb n (sc_name s) then ty else []) l = ty.
Proof.
  induction l as [|s l IH]; intros N H; [destruct H|]. cbn [map flat_map] in *. apply NoDup_cons_iff in N as (N1 & N). destruct (beqb_spec n (sc_name s)) as [->|Ne].
  - assert (Z : flat_map (fun a => if beqb (sc_name s) (sc_name a) then ty else []) l = []); [|rewrite Z; apply app_nil_r].
    clear - N1. induction l as [|a l IH]; [reflexivity|]. cbn [flat_map]. destruct (beqb_spec (sc_name s) (sc_name a)) as [E|_]; [exfalso; apply N1; left; symmetry; exact E|]. apply IH. intros Z. apply N1. right. exact Z.
  - destruct H as [H|H]; [congruence|]. exact (IH N H).
Qed.

(** ** Comments of types are not read at all *)
Definition quiet_enum (e : live_enum) : live_enum := LiveEnum (le_enum e) [].
Definition quiet_domain (o : live_domain) : live_domain :=
  LiveDomain (ld_name o) (ld_type o) (ld_collation o) (ld_notnull o) (ld_default o) (ld_checks o) [].
Definition quiet_home (h : home) : home := Home (hm_name h) (map quiet_enum (hm_enums h)) (map quiet_domain (hm_domains h)) (hm_routines h).
Definition quiet (db : live) : live := Live (lv_dbname db) (lv_extensions db) (map quiet_home (lv_homes db)).
Lemma quiet_rows {A C} db (sel : home -> bool) (get : home -> list A) (rows : A -> list C) (q : A -> A) :
  (forall h, sel (quiet_home h) = sel h) -> (forall h, get (quiet_home h) = map q (get h)) -> (forall a, rows (q a) = rows a) -> home_rows (quiet db) sel get rows = home_rows db sel get rows.
Proof.
  intros S G R. unfold home_rows. cbn [quiet lv_homes]. rewrite flat_map_of_map. apply flat_map_ext. intros h. rewrite S, G. destruct (sel h); [|reflexivity]. rewrite flat_map_of_map.
  apply flat_map_ext. intros a. rewrite R. reflexivity.
Qed.
Lemma quiet_read f db : lv_dbname db <> B"pg_type" -> read_extras Postgres f (quiet db) = read_extras Postgres f db.
Proof.
  intros N. assert (T : forall c c', type_comment (lv_dbname db) c = type_comment (lv_dbname db) c') by (intros c c'; unfold type_comment; destruct (beqb_spec (lv_dbname db) (B"pg_type")); [contradiction|reflexivity]).
  assert (E1 : get_extensions Postgres f (quiet db) = get_extensions Postgres f db) by reflexivity.
  assert (E2 : get_enums Postgres f (quiet db) = get_enums Postgres f db).
  { unfold get_enums. rewrite (quiet_rows db _ hm_enums _ quiet_enum); [reflexivity|reflexivity|reflexivity|]. intros e. unfold enum_row. cbn [quiet le_enum le_comment quiet_enum lv_dbname]. rewrite (T [] (le_comment e)). reflexivity. }
  assert (E3 : get_domains Postgres f (quiet db) = get_domains Postgres f db).
  { unfold get_domains. rewrite (quiet_rows db _ hm_domains _ quiet_domain); [reflexivity|reflexivity|reflexivity|]. intros o. unfold domain_row. cbn [quiet quiet_domain ld_name ld_type ld_collation ld_notnull ld_default ld_checks ld_comment lv_dbname]. rewrite (T [] (ld_comment o)). reflexivity. }
  assert (E4 : get_routines Postgres f (quiet db) = get_routines Postgres f db).
  { unfold get_routines, routine_rows. cbn [quiet lv_homes]. rewrite flat_map_of_map. reflexivity. }
  unfold read_extras. rewrite E1, E2, E3, E4. reflexivity.
Qed.

Section Typed.
Context (builtin : toks -> bool) (db : live) (cat : catalog).
Hypothesis OK : live_ok Postgres db.
Hypothesis EX : existing Postgres cat.
Hypothesis RG : regular Postgres cat.
Hypothesis OD : one_database builtin db cat.
Hypothesis RY : regular_types builtin db cat.
Notation cur := (ct_current cat).
Notation coll := (ct_collation cat).
Let R : restorable Postgres cat := regular_restorable Postgres cat EX RG.
Let D : In Postgres [Postgres; MySQL; SQLServer] := or_introl eq_refl.

(** ** What is read *)
Lemma of_all {A} db' s (get : home -> list A) (sel : A -> bool) : (forall a, sel a = negb (system_home Postgres s)) ->
  of_home db' s get sel = flat_map get (homes_called db' s).
Proof.
  intros S. unfold of_home, homes_called, own_homes. rewrite filter_filter, flat_filter. apply flat_map_ext. intros h. destruct (beqb_spec (hm_name h) s) as [<-|N]; [|rewrite andb_false_r; reflexivity].
  rewrite andb_true_r. destruct (negb (system_home Postgres (hm_name h))) eqn:E.
  - apply filter_all. intros a _. rewrite S, ?E. reflexivity.
  - induction (get h) as [|a l IH]; [reflexivity|]. cbn [filter]. rewrite S, ?E. exact IH.
Qed.
Lemma enums_called db' s : enums_of Postgres everything db' s = flat_map hm_enums (homes_called db' s).
Proof. apply of_all. intros e. unfold wanted_home, chosen, asked. cbn [everything x_kinds x_system x_schemas x_exschemas x_enums x_exenums x_domains x_exdomains bmem existsb orb negb andb]. rewrite !andb_true_r. reflexivity. Qed.
Lemma domains_called db' s : domains_of Postgres everything db' s = flat_map hm_domains (homes_called db' s).
Proof. apply of_all. intros o. unfold wanted_home, chosen, asked. cbn [everything x_kinds x_system x_schemas x_exschemas x_enums x_exenums x_domains x_exdomains bmem existsb orb negb andb]. rewrite !andb_true_r. reflexivity. Qed.
Lemma called_in db' s h : In h (homes_called db' s) -> In h (own_homes db') /\ hm_name h = s.
Proof. intros H. apply filter_In in H as (H & E). split; [exact H|apply beqb_eq; exact E]. Qed.
Lemma quiet_own : own_homes (quiet db) = map quiet_home (own_homes db).
Proof. unfold own_homes. cbn [quiet lv_homes]. induction (lv_homes db) as [|h l IH]; [reflexivity|]. cbn [map filter quiet_home hm_name]. destruct (negb _); cbn [map]; rewrite IH; reflexivity. Qed.
Lemma quiet_called s : homes_called (quiet db) s = map quiet_home (homes_called db s).
Proof. unfold homes_called. rewrite quiet_own. induction (own_homes db) as [|h l IH]; [reflexivity|]. cbn [map filter quiet_home hm_name]. destruct (beqb (hm_name h) s); cbn [map]; rewrite IH; reflexivity. Qed.
Lemma quiet_ok : live_ok Postgres (quiet db).
Proof.
  destruct OK as (A & A2 & A3 & A4). split; [exact A|]. split; [exact A2|]. cbn [quiet lv_homes]. split.
  - rewrite map_map. exact A3.
  - rewrite Forall_forall in *. intros h Hh. apply in_map_iff in Hh as (h' & <- & Hh). destruct (A4 h' Hh) as (B1 & B2 & B3 & B4). split; [congruence|]. cbn [quiet_home hm_enums hm_domains hm_routines]. rewrite !map_map. exact (conj B2 (conj B3 B4)).
Qed.
(** Either comments are not read or there are none. *)
Lemma clear_if db' : live_ok Postgres db' -> (forall s, exists f g, homes_called db' s = map (fun h => Home (hm_name h) (map f (hm_enums h)) (map g (hm_domains h)) (hm_routines h)) (homes_called db s)
    /\ (forall e, le_enum (f e) = le_enum e /\ commented db' (le_comment (f e))) /\ forall o, ld_checks (g o) = ld_checks o /\ commented db' (ld_comment (g o))) ->
  (forall h, In h (lv_homes db') -> no_wildcard (B"pg") (hm_name h)) -> clear_extras Postgres everything db'.
Proof.
  intros OK' H W. split; [|split; [|split; [|split]]].
  - assert (C : clear_list [] []) by (split; [left; reflexivity|split; intros []]). repeat split; auto.
  - intros s. rewrite enums_called, domains_called. destruct (H s) as (f & g & -> & Hf & Hg). rewrite !flat_map_of_map. cbn [hm_enums hm_domains]. split.
    + intros e He. apply in_flat_map in He as (h & Hh & He). apply in_map_iff in He as (e' & <- & He). destruct (called_in _ _ _ Hh) as (Ho & _). destruct (Hf e') as (-> & C). split; [|exact C]. exact (proj1 (ry_enums _ _ _ RY h e' Ho He)).
    + intros o Hi. apply in_flat_map in Hi as (h & Hh & Hi). apply in_map_iff in Hi as (o' & <- & Hi). destruct (called_in _ _ _ Hh) as (Ho & _). destruct (Hg o') as (-> & C). destruct (ry_domains _ _ _ RY h o' Ho Hi) as (A1 & A2). split; [exact A1|]. split; [exact A2|exact C].
  - intros h Hh _. exact (W h Hh).
  - intros h r _ _ E. discriminate E.
  - intros s r Hr. unfold routines_of, of_home in Hr. apply in_flat_map in Hr as (h & Hh & Hr). destruct (beqb_spec (hm_name h) s) as [<-|]; [|destruct Hr]. apply filter_In in Hr as (Hr & S).
    unfold routine_wanted in S. apply andb_true_iff in S as (S & Sx). apply andb_true_iff in S as (S & _). apply andb_true_iff in S as (S & _). apply andb_true_iff in S as (_ & Sw). apply andb_true_iff in Sw as (Sw & _). cbn [everything x_system orb] in Sw.
    assert (Hc : In h (homes_called db' (hm_name h))) by (apply filter_In; split; [apply filter_In; split; assumption|apply beqb_refl]).
    destruct (H (hm_name h)) as (f & g & E & _). rewrite E in Hc. apply in_map_iff in Hc as (h0 & Eh & Hc). destruct (called_in _ _ _ Hc) as (Ho & _).
    assert (Er : hm_routines h = hm_routines h0) by (rewrite <- Eh; reflexivity). rewrite Er in Hr. apply negb_true_iff in Sx.
    pose proof (ry_routines _ _ _ RY h0 r Ho Hr Sx) as K. split; [|split; [intros _; exact K|discriminate]].
    destruct OK as (_ & _ & _ & F). rewrite Forall_forall in F. apply filter_In in Ho as (Ho & _). destruct (F h0 Ho) as (_ & _ & _ & (_ & A) & _). intros Z. apply K. apply (A r Hr). exact Z.
Qed.
Lemma read_types : exists places, read_extras Postgres everything db = Ok (lv_extensions db, places)
  /\ forall s, types_of places s = (map le_enum (flat_map hm_enums (homes_called db (sc_name s))), map read_as (flat_map hm_domains (homes_called db (sc_name s)))).
Proof.
  assert (X : exists db', read_extras Postgres everything db' = read_extras Postgres everything db /\ live_ok Postgres db' /\ clear_extras Postgres everything db' /\ lv_extensions db' = lv_extensions db
    /\ forall s, map le_enum (flat_map hm_enums (homes_called db' s)) = map le_enum (flat_map hm_enums (homes_called db s)) /\ map read_as (flat_map hm_domains (homes_called db' s)) = map read_as (flat_map hm_domains (homes_called db s))).
  { destruct (beqb_spec (lv_dbname db) (B"pg_type")) as [E|N].
    - exists db. split; [reflexivity|]. split; [exact OK|]. split; [|split; [reflexivity|split; reflexivity]]. apply (clear_if db OK); [|exact (ry_homes _ _ _ RY)].
      intros s. exists (fun e => e), (fun o => o). split; [|split; [intros e; split; [reflexivity|right; exact E]|intros o; split; [reflexivity|right; exact E]]].
      rewrite <- (map_id (homes_called db s)) at 1. apply map_ext. intros h. rewrite !map_id. destruct h; reflexivity.
    - exists (quiet db). split; [exact (quiet_read everything db N)|]. split; [exact quiet_ok|]. split; [|split; [reflexivity|]].
      + apply (clear_if _ quiet_ok); [|intros h Hh; apply in_map_iff in Hh as (h' & <- & Hh); exact (ry_homes _ _ _ RY h' Hh)].
        intros s. exists quiet_enum, quiet_domain. split; [exact (quiet_called s)|]. split; intros a; (split; [reflexivity|left; reflexivity]).
      + intros s. rewrite quiet_called. rewrite !flat_map_of_map. cbn [quiet_home hm_enums hm_domains]. rewrite !map_flat. split; apply flat_map_ext; intros h; rewrite map_map; reflexivity. }
  destruct X as (db' & E & OK' & C & Ee & Et). destruct (extras_ok Postgres everything db' OK' C) as (exts & places & Er & Ex & _ & _ & S).
  exists places. rewrite <- E, Er. split.
  - rewrite Ex. unfold wanted_extensions. cbn [asked everything x_kinds x_extensions x_exextensions]. rewrite filter_all by reflexivity. rewrite Ee. reflexivity.
  - intros s. destruct (Et (sc_name s)) as (<- & <-). unfold types_of. rewrite !flat_filter. destruct (S (sc_name s)) as (S1 & S2 & _). unfold in_schema in S1, S2. rewrite S1, enums_called. rewrite domains_called in S2. f_equal.
    + rewrite map_map. reflexivity.
    + clear - S2. induction S2 as [|o x l m H F IH]; [reflexivity|]. cbn [map]. rewrite <- IH. f_equal. unfold same_domain in H. rewrite H. reflexivity.
Qed.

(** ** What is written *)
Definition type_cmd (t : typed) : command := IType (path_of (qualify cur (fst (fst t)) (snd (fst t)))) (snd t).
Definition types_in (s : schema) : list typed := flat_map home_enums (homes_called db (sc_name s)) ++ flat_map (home_domains coll) (homes_called db (sc_name s)).
Definition schema_cmds (s : schema) : list command := IStatement (CreateSchema (sc_name s)) :: map type_cmd (types_in s).
Lemma told_schema s types : In s (ct_schemas cat) -> types s = (map le_enum (flat_map hm_enums (homes_called db (sc_name s))), map read_as (flat_map hm_domains (homes_called db (sc_name s)))) ->
  Forall2 told (schema_texts Postgres cat types s) ([IStatement (CreateSchema (sc_name s))] :: map (fun t => [type_cmd t]) (types_in s)).
Proof.
  intros Hs Et. destruct (rs_schemas _ _ R s Hs) as (Nn & P & _). unfold schema_texts. rewrite Et. cbn [fst snd]. assert (given (sc_name s) = true) as -> by (destruct (sc_name s); [congruence|reflexivity]).
  cbn [app]. constructor; [exact (told_noted _ _ (noted_schema Postgres cat D R s Hs))|]. unfold types_in. rewrite map_app. rewrite !map_map, !map_flat. apply Forall2_app; apply Forall2_flat; intros h Hh.
  - destruct (called_in _ _ _ Hh) as (Ho & En). unfold home_enums. rewrite map_map. apply Forall2_each. intros e He. unfold type_cmd. cbn [fst snd]. rewrite En.
    destruct (ry_enums _ _ _ RY h e Ho He) as (L1 & L2). exact (told_enum cat (sc_name s) (le_enum e) P (proj2 (od_enums _ _ _ OD h e Ho He)) L1 L2).
  - destruct (called_in _ _ _ Hh) as (Ho & En). unfold home_domains. rewrite map_map. apply Forall2_each. intros o Hd. unfold type_cmd. cbn [fst snd]. rewrite En.
    exact (told_domain cat (sc_name s) o P (od_domains _ _ _ OD h o Ho Hd) (proj2 (ry_domains _ _ _ RY h o Ho Hd))).
Qed.
Lemma typed_read types : (forall s, types s = (map le_enum (flat_map hm_enums (homes_called db (sc_name s))), map read_as (flat_map hm_domains (homes_called db (sc_name s))))) ->
  command_file (dump_schema Postgres cat (lv_extensions db) types)
  = Some (map IExtension (lv_extensions db) ++ flat_map schema_cmds (ct_schemas cat) ++ map IStatement (map (create_stmt Postgres cat) (catalog_tables cat))).
Proof.
  intros Et. apply told_read. unfold dump_schema.
  assert (E : map IExtension (lv_extensions db) ++ flat_map schema_cmds (ct_schemas cat) ++ map IStatement (map (create_stmt Postgres cat) (catalog_tables cat))
    = concat (map (fun n => [IExtension n]) (lv_extensions db) ++ flat_map (fun s => [IStatement (CreateSchema (sc_name s))] :: map (fun t => [type_cmd t]) (types_in s)) (ct_schemas cat)
        ++ flat_map (fun s => map (fun e => [IStatement (create_stmt Postgres cat e)]) (schema_tables s)) (ct_schemas cat))).
  { rewrite !concat_app, !concat_flat, concat_each. f_equal. f_equal.
    - apply flat_map_ext. intros s. cbn [concat app]. rewrite concat_each. reflexivity.
    - rewrite map_map. unfold catalog_tables. rewrite map_flat. apply flat_map_ext. intros s. symmetry. apply concat_each. }
  rewrite E. apply told_texts. apply Forall2_app; [|apply Forall2_app].
  - apply Forall2_each. intros n Hn. apply told_extension. exact (proj2 (od_extensions _ _ _ OD) n Hn).
  - apply Forall2_flat. intros s Hs. exact (told_schema s types Hs (Et s)).
  - apply Forall2_flat. intros s Hs. unfold table_texts. rewrite filter_all.
    + unfold schema_tables. rewrite map_map. apply Forall2_each. intros t Ht. exact (told_noted _ [_] (noted_table Postgres cat D R (sc_name s, t) (in_tables cat s t Hs Ht))).
    + intros t Ht. pose proof (rs_table _ _ R _ _ (in_tables cat s t Hs Ht)) as T. rewrite (proj1 (proj2 (rt_plain _ _ _ _ T))). reflexivity.
Qed.
Lemma commands_of n ts l : read_all n Postgres ts = Some l -> read_commands n ts = Some (map IStatement l).
Proof.
  revert ts l. induction n as [|n IH]; intros [|t ts] l H; cbn [read_all read_commands] in *; try discriminate H; try (injection H as <-; reflexivity).
  destruct (read_statement Postgres (t :: ts)) as [[l1 r]|] eqn:E; [|discriminate H]. cbn [andthen] in H. destruct (read_all n Postgres r) as [l2|] eqn:E2; [|discriminate H]. injection H as <-.
  unfold read_command. rewrite (create_other _ _ (B"EXTENSION") E), (create_other _ _ (B"TYPE") E), (create_other _ _ (B"DOMAIN") E) by (cbn; tauto).
  rewrite E. cbn [andthen]. rewrite (IH r l2 E2). cbn [andthen]. rewrite map_app. reflexivity.
Qed.
Lemma file_commands s l : read_file Postgres s = Some l -> command_file s = Some (map IStatement l).
Proof. unfold read_file, command_file. destruct (file_tokens Postgres s) as [ts|]; [|discriminate]. cbn [andthen]. apply commands_of. Qed.

(** ** What is run *)
Notation exec := (run_command builtin cur).
Lemma run_extensions l : forall x, exists E, each_in exec (map IExtension l) (Some x) = Some (TDb E (t_types x) (t_rest x)) /\ forall n, In n E <-> In n (t_extensions x) \/ In n l.
Proof.
  induction l as [|a l IH]; intros x; [exists (t_extensions x); split; [destruct x; reflexivity|cbn; tauto]|]. unfold each_in. cbn [map fold_left andthen run_command].
  destruct (bmem a (t_extensions x)) eqn:M.
  - destruct (IH x) as (E & H & I). exists E. split; [exact H|]. apply bmem_In in M. intros n. rewrite I. cbn [In]. split; [tauto|]. intros [H1|[<-|H1]]; auto.
  - destruct (IH (TDb (t_extensions x ++ [a]) (t_types x) (t_rest x))) as (E & H & I). exists E. split; [exact H|]. intros n. rewrite I. cbn [t_extensions In]. rewrite in_app_iff. cbn [In]. tauto.
Qed.
Lemma where_type s n : s <> [] -> whereabouts cur (path_of (qualify cur s n)) = Some (s, n).
Proof.
  intros N. unfold qualify. destruct (beqb_spec s cur) as [E|Nc].
  - rewrite andb_false_r. cbn [path_of fst snd whereabouts]. rewrite E. reflexivity.
  - destruct s as [|c s]; [congruence|]. reflexivity.
Qed.
Lemma run_types E Q l : l_tables Q = [] -> forall done, (forall t, In t l -> fst (fst t) <> [] /\ In (fst (fst t)) (l_schemas Q)) -> NoDup (map fst (done ++ l)) ->
  (forall l1 t l2, l = l1 ++ t :: l2 -> acceptable builtin cur (map fst (done ++ l1)) (snd t) = true) ->
  each_in exec (map type_cmd l) (Some (TDb E done Q)) = Some (TDb E (done ++ l) Q).
Proof.
  intros T. induction l as [|[[s n] ty] l IH]; intros done S N A; [rewrite app_nil_r; reflexivity|]. unfold each_in. cbn [map fold_left andthen]. unfold type_cmd at 2. cbn [run_command fst snd].
  destruct (S _ (or_introl eq_refl)) as (S1 & S2). cbn [fst] in S1, S2. rewrite where_type by exact S1. cbn [andthen fst t_rest].
  rewrite (proj2 (bmem_In s (l_schemas Q)) S2).
  assert (taken (TDb E done Q) (s, n) = false) as ->.
  { unfold taken. cbn [t_types t_rest]. rewrite T. cbn [map existsb]. rewrite orb_false_r. match goal with |- ?b = false => destruct b eqn:X end; [|reflexivity]. exfalso. apply existsb_exists in X as (q & Hq & X).
    destruct (qeqb_spec (s, n) q) as [Eq|]; [|discriminate X]. subst q. rewrite map_app in N. cbn [map] in N. apply NoDup_remove_2 in N. apply N. apply in_or_app. left. exact Hq. }
  pose proof (A [] _ l eq_refl) as A0. rewrite app_nil_r in A0. cbn [snd] in A0. cbn [t_types]. match goal with |- context [acceptable ?a ?b ?c ?e] => replace (acceptable a b c e) with true by (symmetry; exact A0) end. cbn [andb negb t_extensions].
  pose proof (IH (done ++ [((s, n), ty)])) as H. rewrite <- !app_assoc in H. cbn [app] in H. apply H.
  - intros t' Ht. apply S. right. exact Ht.
  - exact N.
  - intros l1 t' l2 El. rewrite <- app_assoc. cbn [app]. apply (A (((s, n), ty) :: l1) t' l2). rewrite El. reflexivity.
Qed.
Lemma listed_is : listed_types db cat = flat_map types_in (ct_schemas cat).
Proof. reflexivity. Qed.
Lemma listed_perm : Permutation (listed_types db cat) (live_types coll db).
Proof.
  rewrite listed_is. transitivity (flat_map (fun s => flat_map (fun h => if beqb (hm_name h) (sc_name s) then home_types coll h else []) (own_homes db)) (ct_schemas cat)).
  - apply flat_map_perm. intros s _. unfold types_in, homes_called. rewrite <- flat_map_split, flat_filter. apply Permutation_refl.
  - rewrite flat_swap. apply flat_map_perm. intros h Hh. destruct (home_types coll h) as [|t l] eqn:Eh.
    + rewrite flat_nothing. constructor.
    + rewrite flat_once; [apply Permutation_refl|exact (proj1 (ex_tables _ _ EX))|].
      apply (od_schemas _ _ _ OD h Hh). unfold home_types, home_enums, home_domains in Eh |- *. destruct (hm_enums h); [|discriminate]. destruct (hm_domains h); discriminate.
Qed.
Lemma listed_apart : NoDup (map fst (listed_types db cat)).
Proof. rewrite listed_perm. pose proof (od_names _ _ _ OD) as N. exact (nodup_left _ _ N). Qed.
Lemma each_cons {A X} (f : A -> X -> option X) a l x : each_in f (a :: l) (Some x) = each_in f l (f a x).
Proof. reflexivity. Qed.
Lemma run_schema E T Q n : n <> [] -> exec (IStatement (CreateSchema n)) (TDb E T Q) = Some (TDb E T (if bmem n (l_schemas Q) then Q else LDb (l_schemas Q ++ [n]) (l_tables Q))).
Proof. intros N. cbn [run_command allowed SpecLoad.run t_rest t_extensions t_types]. destruct n; [congruence|]. reflexivity. Qed.
Lemma run_schemas E rest : forall pre Q, ct_schemas cat = pre ++ rest -> l_tables Q = [] -> (forall s, In s pre -> In (sc_name s) (l_schemas Q)) ->
  exists S, each_in exec (flat_map schema_cmds rest) (Some (TDb E (flat_map types_in pre) Q)) = Some (TDb E (flat_map types_in (ct_schemas cat)) (LDb S [])) /\ forall s, In s (ct_schemas cat) -> In (sc_name s) S.
Proof.
  induction rest as [|s rest IH]; intros pre Q Ec T Hp.
  - rewrite app_nil_r in Ec. exists (l_schemas Q). rewrite Ec. split; [destruct Q; cbn in T; subst; reflexivity|exact Hp].
  - cbn [flat_map]. rewrite each_app. unfold schema_cmds at 2. rewrite each_cons.
    assert (Hs : In s (ct_schemas cat)) by (rewrite Ec; apply in_or_app; right; left; reflexivity). destruct (rs_schemas _ _ R s Hs) as (Nn & _).
    rewrite run_schema by exact Nn.
    match goal with |- context [TDb E _ (if ?b then Q else ?z)] => set (Q' := if b then Q else z) end.
    assert (T' : l_tables Q' = []) by (unfold Q'; destruct (bmem _ _); exact T).
    assert (I' : forall n, In n (l_schemas Q) -> In n (l_schemas Q')) by (intros n Hn; unfold Q'; destruct (bmem _ _); [exact Hn|apply in_or_app; left; exact Hn]).
    assert (S' : In (sc_name s) (l_schemas Q')) by (unfold Q'; destruct (bmem (sc_name s) (l_schemas Q)) eqn:M; [apply bmem_In in M; exact M|apply in_or_app; right; left; reflexivity]).
    clearbody Q'.
    assert (El : listed_types db cat = (flat_map types_in pre ++ types_in s) ++ flat_map types_in rest) by (rewrite listed_is, Ec, flat_map_app; cbn [flat_map]; apply app_assoc).
    rewrite run_types.
    + destruct (IH (pre ++ [s]) Q') as (S & H & HS); [rewrite Ec, <- app_assoc; reflexivity|exact T'|intros s0 Hs0; apply in_app_or in Hs0 as [Hs0|[<-|[]]]; [apply I', Hp, Hs0|exact S']|].
      exists S. rewrite flat_map_app in H. cbn [flat_map] in H. rewrite app_nil_r in H. split; [exact H|exact HS].
    + exact T'.
    + intros t Ht. assert (Ef : fst (fst t) = sc_name s); [|rewrite Ef; split; [exact Nn|exact S']].
      unfold types_in in Ht. apply in_app_or in Ht as [Ht|Ht]; apply in_flat_map in Ht as (h & Hh & Ht); apply in_map_iff in Ht as (a & <- & _); exact (proj2 (called_in _ _ _ Hh)).
    + pose proof listed_apart as N. rewrite El, map_app in N. exact (nodup_left _ _ N).
    + intros l1 t l2 Et. apply (ry_order _ _ _ RY (flat_map types_in pre ++ l1) t (l2 ++ flat_map types_in rest)). rewrite El, Et, <- !app_assoc. reflexivity.
Qed.
Lemma run_plain E T l : (forall s, In s l -> forall Q, allowed builtin cur (TDb E T Q) s = true) ->
  forall Q, each_in exec (map IStatement l) (Some (TDb E T Q)) = let? Z := each_in (SpecLoad.run Postgres cur) l (Some Q) in Some (TDb E T Z).
Proof.
  induction l as [|s l IH]; intros A Q; [reflexivity|]. unfold each_in. cbn [map fold_left andthen run_command]. rewrite (A s (or_introl eq_refl) Q). cbn [t_rest t_extensions t_types].
  destruct (SpecLoad.run Postgres cur s Q) as [Z|]; cbn [andthen].
  - apply IH. intros s' Hs. apply A. right. exact Hs.
  - assert (F : forall m, fold_left (fun o a => let? x := o in exec a x) m None = None) by (induction m as [|a m IHm]; [reflexivity|exact IHm]). rewrite F.
    assert (G : forall m, fold_left (fun o a => let? x := o in SpecLoad.run Postgres cur a x) m None = None) by (induction m as [|a m IHm]; [reflexivity|exact IHm]). rewrite G. reflexivity.
Qed.
Lemma tables_allowed E T e : Permutation T (live_types coll db) -> In e (catalog_tables cat) -> forall Q, allowed builtin cur (TDb E T Q) (create_stmt Postgres cat e) = true.
Proof.
  intros P He Q. unfold create_stmt. cbn [allowed t_types]. rewrite (whereabouts_at Postgres cat R e He). apply andb_true_intro. split.
  - apply negb_true_iff. match goal with |- ?b = false => destruct b eqn:X end; [|reflexivity]. exfalso. apply existsb_exists in X as (q & Hq & X). destruct (qeqb_spec (place_of e) q) as [<-|]; [|discriminate X].
    apply (nodup_apart _ _ _ (od_names _ _ _ OD) (Permutation_in _ (Permutation_map fst P) Hq)). apply in_map_iff. exists e. split; [reflexivity|exact He].
  - apply forallb_forall. intros c Hc. apply in_map_iff in Hc as (c' & <- & Hc). cbn [column_meant cd_type]. pose proof (od_columns _ _ _ OD e c' He Hc) as A. unfold available in *.
    destruct (builtin _); [reflexivity|]. cbn [orb] in *. destruct (named cur _) as [q|]; [|discriminate A]. apply existsb_exists in A as (q' & Hq & Eq). apply existsb_exists. exists q'. split; [|exact Eq].
    exact (Permutation_in _ (Permutation_map fst (Permutation_sym P)) Hq).
Qed.
Lemma others_allowed E T s : match s with CreateTable _ _ _ => False | _ => True end -> forall Q, allowed builtin cur (TDb E T Q) s = true.
Proof. intros H Q. destruct s; try reflexivity. destruct H. Qed.
Lemma typed_loads x : without_types x -> exists files y, typed_dump db cat = Ok files /\ run_files builtin cur files x = Some y /\ has_types db cat x y.
Proof.
  intros (X1 & X2). destruct read_types as (places & Er & Et). destruct (constraints_read Postgres cat D R) as (c & Ec & Rc).
  unfold typed_dump. rewrite Er. cbn [bindr]. rewrite Ec. cbn [bindr]. eexists. 
  destruct (run_extensions (lv_extensions db) x) as (E & HE & IE). rewrite X1 in HE.
  destruct (run_schemas E (ct_schemas cat) [] (t_rest x) eq_refl X2 ltac:(intros s [])) as (S & HS & IS). set (T := flat_map types_in (ct_schemas cat)) in *.
  assert (P : Permutation T (live_types coll db)) by exact listed_perm.
  exists (TDb E T (state (start Postgres cat S) (all_ops Postgres cat))). split; [reflexivity|]. split.
  - unfold run_files, each_in. cbn [fold_left andthen].
    assert (F1 : run_file builtin cur (dump_schema Postgres cat (lv_extensions db) (types_of places)) x = Some (TDb E T (start Postgres cat S))).
    { unfold run_file. rewrite (typed_read _ Et). cbn [andthen]. rewrite !each_app, HE. cbn [flat_map] in HS. rewrite HS. rewrite run_plain.
      - pose proof (create_tables Postgres cat D R S (catalog_tables cat) IS [] eq_refl) as C. cbn [map] in C. rewrite C. reflexivity.
      - intros s Hs. apply in_map_iff in Hs as (e & <- & He). exact (tables_allowed E T e P He). }
    rewrite F1. cbn [andthen].
    assert (F2 : run_file builtin cur (dump_indexes Postgres cat) (TDb E T (start Postgres cat S)) = Some (TDb E T (state (start Postgres cat S) (flat_map (index_ops Postgres cat) (catalog_tables cat))))).
    { unfold run_file. rewrite (file_commands _ _ (indexes_read Postgres cat D R)). cbn [andthen]. rewrite run_plain.
      - rewrite (each_both _ _ _ _ (does_indexes Postgres cat R)), (add_indexes Postgres cat D R S). reflexivity.
      - intros s Hs. apply others_allowed. apply in_flat_map in Hs as (e & _ & Hs). apply in_map_iff in Hs as (i & <- & _). exact Logic.I. }
    rewrite F2. cbn [andthen]. unfold run_file. rewrite (file_commands _ _ Rc). cbn [andthen]. rewrite run_plain.
    + rewrite (each_both _ _ _ _ (does_adds Postgres cat R)). pose proof (add_constraints Postgres cat D R S (ct_schemas cat) [] eq_refl) as F. cbn [flat_map] in F. rewrite app_nil_r in F. rewrite F. reflexivity.
    + intros s Hs. apply others_allowed. apply in_flat_map in Hs as (sc & _ & Hs). apply in_app_or in Hs as [Hs|Hs]; apply in_flat_map in Hs as (e & _ & Hs); apply in_map_iff in Hs as (k & <- & _); exact Logic.I.
  - split; [exact IE|]. split; [exact P|exact (same_at_end Postgres cat D R S IS)].
Qed.
End Typed.
