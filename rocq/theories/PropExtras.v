(** C102: the extensions, enums, domains and routines of a live database are read as they are. *)
From Verif Require Import GoStr GoStrFacts SpecCsv ModelCache ModelDump ModelWipe ModelIntrospect SpecLive IntrospectFacts IntrospectDb ModelExtras SpecExtras ExtrasFacts.

(** The extensions, enums, domains and routines that are wanted are read, each once, in their schemas and with
    all they consist of. *)
Definition C102_claim (d : dialect) (f : extra_choice) (db : live) : Prop :=
  exists exts cat, read_extras d f db = Ok (exts, cat) /\ extras_read d f db exts cat.
Definition C102_full : Prop := forall d f db, live_ok d db -> C102_claim d f db.

(** It holds for [clear_extras].  Missing: lists of enums and domains, enums without labels, domains without
    checks, checks that do not hold for existing values, comments of types, schemas whose names start with pg,
    aggregates, and in MySQL routines without parameters or procedures and functions of the same name. *)
Theorem C102_partial : forall d f db, live_ok d db -> clear_extras d f db -> C102_claim d f db.
Proof. intros d f db OK CL. exact (extras_ok d f db OK CL). Qed.

(** ** What is not read at all *)
Lemma map_result_err {A C} (g : A -> result C) l a : In a l -> (forall c, g a <> Ok c) -> forall r, map_result g l <> Ok r.
Proof.
  induction l as [|x l IH]; [contradiction|]. intros [->|I] H r; cbn [map_result].
  - destruct (g a) as [c| |]; [exfalso; exact (H c eq_refl)| |]; discriminate.
  - destruct (g x) as [c| |]; try discriminate. cbn [bindr]. specialize (IH I H). destruct (map_result g l) as [r'| |]; try discriminate. exfalso. exact (IH r' eq_refl).
Qed.
Lemma routines_err d f db : asked f (B"ROUTINES") = true -> (forall r, get_routines d f db <> Ok r) -> forall r, read_extras d f db <> Ok r.
Proof.
  intros A H r. unfold read_extras. change (included f (B"ROUTINES")) with (asked f (B"ROUTINES")). rewrite A.
  destruct (when (included f (B"EXTENSIONS")) _) as [e1| |]; try discriminate. cbn [bindr].
  destruct (when (included f (B"ENUMS")) _) as [e2| |]; try discriminate. cbn [bindr].
  destruct (add_items pl_enums _ _ _ _) as [e3| |]; try discriminate. cbn [bindr].
  destruct (when (included f (B"DOMAINS")) _) as [e4| |]; try discriminate. cbn [bindr].
  destruct (add_items pl_domains _ _ _ _) as [e5| |]; try discriminate. cbn [bindr when].
  destruct (get_routines d f db) as [e6| |]; try discriminate. exfalso. exact (H e6 eq_refl).
Qed.
Lemma routine_err d f db h r : In h (lv_homes db) -> In r (hm_routines h) -> d <> SQLite -> routine_in_scope d f h r = true -> (forall x, read_routine d h r <> Ok x) ->
  forall x, get_routines d f db <> Ok x.
Proof.
  intros Ih Ir Nq S E x. assert (X : map_result (fun '(s, r) => bindr r (fun r => Ok (s, r))) (routine_rows d f db) <> Ok x).
  { apply (map_result_err _ _ (hm_name h, read_routine d h r)).
    - unfold routine_rows. apply in_flat_map. exists h. split; [exact Ih|]. apply in_map_iff. exists r. split; [reflexivity|]. apply filter_In. auto.
    - intros c. destruct (read_routine d h r) as [y| |]; [exfalso; exact (E y eq_refl)| |]; discriminate. }
  unfold get_routines. destruct d; try contradiction; try discriminate; destruct (bad_schemas f || _); try discriminate; exact X.
Qed.
(** Nothing can be read from a database with an aggregate function that is wanted. *)
Theorem C102_aggregates : forall f db h r, live_ok Postgres db -> clear_list (x_schemas f) (x_exschemas f) -> clear_list (x_routines f) (x_exroutines f) ->
  In h (lv_homes db) -> In r (hm_routines h) -> no_wildcard (B"pg") (hm_name h) ->
  lr_kind r = Aggregate -> routine_wanted Postgres f (hm_name h) r = true -> forall x, read_extras Postgres f db <> Ok x.
Proof.
  intros f db h r OK Cs Cr Ih Ir Nw K W. unfold routine_wanted, wanted_home in W.
  apply andb_prop in W as [W E]. apply andb_prop in W as [W W3]. apply andb_prop in W as [W _]. apply andb_prop in W as [A W]. apply andb_prop in W as [W1 W2].
  apply routines_err; [exact A|]. apply (routine_err Postgres f db h r Ih Ir); [discriminate| |intros x; unfold read_routine; rewrite K; discriminate].
  unfold routine_in_scope. rewrite !listed_chosen by assumption. rewrite W2, W3, E. cbn [schema_listed]. rewrite like_clear by exact Nw. rewrite !andb_true_r.
  unfold system_home in W1. rewrite negb_orb in W1. exact W1.
Qed.
(** Nor from a MySQL database with a function without parameters. *)
Theorem C102_no_parameters : forall f db h r, live_ok MySQL db -> clear_list (x_schemas f) (x_exschemas f) -> clear_list (x_routines f) (x_exroutines f) ->
  In h (lv_homes db) -> In r (hm_routines h) -> lr_kind r = Function -> (forall r', In r' (hm_routines h) -> lr_name r' = lr_name r -> lr_params r' = []) ->
  routine_wanted MySQL f (hm_name h) r = true -> forall x, read_extras MySQL f db <> Ok x.
Proof.
  intros f db h r OK Cs Cr Ih Ir K Np W. unfold routine_wanted, wanted_home in W.
  apply andb_prop in W as [W _]. apply andb_prop in W as [W W3]. apply andb_prop in W as [W _]. apply andb_prop in W as [A W]. apply andb_prop in W as [W1 W2].
  apply routines_err; [exact A|]. apply (routine_err MySQL f db h r Ih Ir); [discriminate| |].
  - unfold routine_in_scope. rewrite !listed_chosen by assumption. rewrite W2, W3. rewrite !andb_true_r. apply andb_true_intro. split.
    + replace (schema_listed MySQL (hm_name h)) with (negb (system_home MySQL (hm_name h))); [exact W1|]. reflexivity.
    + unfold has_param_rows. apply existsb_exists. exists r. split; [|rewrite K; reflexivity]. unfold name_sakes. apply filter_In. split; [exact Ir|apply beqb_refl].
  - intros x. unfold read_routine. rewrite K. destruct (lr_sql r) as [s|]; [|discriminate].
    replace (mysql_params h (lr_name r)) with (@None bytes); [discriminate|]. unfold mysql_params, joined_params.
    replace (fold_right Nat.max 0 _) with 0; [reflexivity|].
    assert (P : forall y, In y (name_sakes h (lr_name r)) -> lr_params y = []).
    { intros y Iy. unfold name_sakes in Iy. apply filter_In in Iy as [Iy E]. apply beqb_eq in E. exact (Np y Iy E). }
    induction (name_sakes h (lr_name r)) as [|y l IH]; [reflexivity|]. cbn [map fold_right]. rewrite (P y (or_introl eq_refl)). cbn [List.length Nat.max]. apply IH. intros z I. apply P. right. exact I.
Qed.
(** Nor if enums or domains are chosen by their names. *)
Theorem C102_by_name : forall f db, (asked f (B"ENUMS") = true /\ x_enums f ++ x_exenums f <> []) \/ (asked f (B"DOMAINS") = true /\ x_domains f ++ x_exdomains f <> []) ->
  forall x, read_extras Postgres f db <> Ok x.
Proof.
  intros f db H x. unfold read_extras. destruct (when (included f (B"EXTENSIONS")) _) as [e1| |]; try discriminate. cbn [bindr].
  destruct H as [[A H]|[A H]].
  - change (included f (B"ENUMS")) with (asked f (B"ENUMS")). rewrite A. cbn [when]. unfold get_enums.
    replace (some_filter (x_enums f) (x_exenums f)) with true; [rewrite orb_true_r; discriminate|]. destruct (x_enums f), (x_exenums f); try reflexivity. contradiction.
  - destruct (when (included f (B"ENUMS")) _) as [e2| |]; try discriminate. cbn [bindr]. destruct (add_items pl_enums _ _ _ _) as [e3| |]; try discriminate. cbn [bindr].
    change (included f (B"DOMAINS")) with (asked f (B"DOMAINS")). rewrite A. cbn [when]. unfold get_domains.
    replace (some_filter (x_domains f) (x_exdomains f)) with true; [rewrite orb_true_r; discriminate|]. destruct (x_domains f), (x_exdomains f); try reflexivity. contradiction.
Qed.

(** ** What is read wrongly *)
Definition all : extra_choice := ExtraChoice false [] [] [] [] [] [] [] [] [] [] [].
Definition pg (enums : list live_enum) (domains : list live_domain) (routines : list live_routine) : live :=
  Live (B"db") [] [Home (B"public") enums domains routines].
Definition plain_routine (n : bytes) (k : routine_kind) (params : list (bytes * bytes * bytes)) (sql : option bytes) : live_routine :=
  LiveRoutine n [] k params (B"int") sql [] true (B"SQL", B"NO SQL", B"DEFINER") false.
Definition my (routines : list live_routine) : live := Live (B"db") [] [Home (B"db") [] [] routines].
Definition ms (routines : list live_routine) : live := Live (B"db") [] [Home (B"dbo") [] [] routines].
Ltac nodup := vm_compute; repeat (apply NoDup_cons; [cbn; intuition discriminate|]); apply NoDup_nil.
Ltac each_routine := intros ? I; cbn in I; repeat (destruct I as [<-|I]; [cbn; intuition discriminate|]); contradiction.
Ltac solve_home :=
  split; [try (intros N; contradiction N; reflexivity); intros _; split; reflexivity|]; split; [nodup|]; split; [nodup|];
  split; [cbn beta iota; try reflexivity; first [nodup|split; [nodup|each_routine]]|try (intros N; contradiction N; reflexivity); intros _; each_routine].
Ltac solve_live :=
  split; [discriminate|]; split; [try (intros N; contradiction N; reflexivity); reflexivity|]; split; [nodup|];
  repeat (apply Forall_cons; [solve_home|]); apply Forall_nil.

(** A domain without checks is given one without a name and an expression. *)
Definition free_domain : live_domain := LiveDomain (B"code") (B"text") [] false [] [] [].
Theorem C102_no_checks : live_ok Postgres (pg [] [free_domain] []) /\ 
  read_extras Postgres all (pg [] [free_domain] []) = Ok ([], [Place (B"public") [] [(Domain (B"code") (B"text") [] false [] [[]] [[]], [])] []]).
Proof. split; [solve_live|vm_compute; reflexivity]. Qed.
(** "NOT VALID" becomes a part of the expression. *)
Definition old_domain : live_domain := LiveDomain (B"code") (B"text") [] false [] [(B"code_check", B"VALUE <> ''", false)] [].
Theorem C102_not_valid : live_ok Postgres (pg [] [old_domain] []) /\
  read_extras Postgres all (pg [] [old_domain] []) = Ok ([], [Place (B"public") [] [(Domain (B"code") (B"text") [] false [] [B"code_check"] [B"(VALUE <> '') NOT VALID"], [])] []]).
Proof. split; [solve_live|vm_compute; reflexivity]. Qed.
(** Comments and enums without labels are lost. *)
Definition mood : live_enum := LiveEnum (Enum (B"mood") [B"sad"; B"ok"]) (B"how it feels").
Definition nothing : live_enum := LiveEnum (Enum (B"nothing") []) [].
Theorem C102_comments : live_ok Postgres (pg [mood; nothing] [] []) /\
  read_extras Postgres all (pg [mood; nothing] [] []) = Ok ([], [Place (B"public") [(Enum (B"mood") [B"sad"; B"ok"], [])] [] []]).
Proof. split; [solve_live|vm_compute; reflexivity]. Qed.
(** Schemas whose names start with pg are hidden, and in SQL Server routines whose names start with sp. *)
Definition pgapp : live := Live (B"db") [] [Home (B"pgapp") [mood] [] []].
Theorem C102_hidden : live_ok Postgres pgapp /\ read_extras Postgres all pgapp = Ok ([], [])
  /\ live_ok SQLServer (ms [plain_routine (B"split") Function [] (Some (B"CREATE FUNCTION split"))])
  /\ read_extras SQLServer all (ms [plain_routine (B"split") Function [] (Some (B"CREATE FUNCTION split"))]) = Ok ([], []).
Proof. split; [solve_live|]. split; [vm_compute; reflexivity|]. split; [solve_live|vm_compute; reflexivity]. Qed.
(** A MySQL procedure without parameters is lost. *)
Definition tidy : live_routine := plain_routine (B"tidy") Procedure [] (Some (B"BEGIN END")).
Theorem C102_procedures : live_ok MySQL (my [tidy]) /\ read_extras MySQL all (my [tidy]) = Ok ([], []).
Proof. split; [solve_live|vm_compute; reflexivity]. Qed.
(** Of a function and a procedure of the same name one is lost, the other has the parameters of both. *)
Definition both : list live_routine :=
  [plain_routine (B"f") Function [(B"IN", B"a", B"int")] (Some (B"RETURN a")); plain_routine (B"f") Procedure [(B"OUT", B"b", B"text")] (Some (B"SET b = ''"))].
Theorem C102_same_name : live_ok MySQL (my both) /\
  exists x, read_extras MySQL all (my both) = Ok ([], [Place (B"db") [] [] [x]]) /\ rt_type x = B"PROCEDURE" /\ attr x (B"parameters") = Some (B"a int|OUT b text").
Proof. split; [solve_live|]. eexists. split; [vm_compute; reflexivity|]. split; reflexivity. Qed.
(** An encrypted SQL Server module makes reading fail. *)
Theorem C102_encrypted : live_ok SQLServer (ms [plain_routine (B"secret") Procedure [] None])
  /\ read_extras SQLServer all (ms [plain_routine (B"secret") Procedure [] None]) = Err.
Proof. split; [solve_live|vm_compute; reflexivity]. Qed.
Theorem C102_refuted : ~ C102_full.
Proof.
  intros H. destruct (H MySQL all (my [tidy]) (proj1 C102_procedures)) as (e & c & E & _ & _ & _ & R). rewrite (proj2 C102_procedures) in E. injection E as <- <-.
  destruct (R (B"db")) as (_ & _ & X). vm_compute in X. inversion X.
Qed.

(** ** Databases that are read *)
Definition sum_of (n : bytes) (a : bytes) : live_routine :=
  LiveRoutine n a Function [] (B"integer") (Some (B"CREATE FUNCTION " ++ n ++ B"() AS $$" ++ [CR; LF] ++ B"SELECT 1$$")) (B"adds") true ([], [], []) false.
Definition shop : live :=
  Live (B"shop") [B"citext"; B"uuid-ossp"]
    [Home (B"public") [LiveEnum (Enum (B"mood") [B"sad"; B"ok"]) []]
       [LiveDomain (B"email") (B"text") (B"en_US") true (B"'x'") [(B"c1", B"VALUE ~ '@'", true); (B"c2", B"VALUE <> ''", true)] []]
       [sum_of (B"add") (B"a integer"); sum_of (B"add") (B"a text")];
     Home (B"stock") [] [] [sum_of (B"add") []; LiveRoutine (B"digest") [] Function [] (B"bytea") (Some (B"x")) [] true ([], [], []) true];
     Home (B"pg_catalog") [] [] [sum_of (B"max") []]].
Definition no_uuid : extra_choice := ExtraChoice false [] [] [] [] [] [] [] [] [] [] [B"uuid-ossp"].
Lemma shop_ok : live_ok Postgres shop.
Proof. solve_live. Qed.
Lemma shop_clear : clear_extras Postgres no_uuid shop.
Proof.
  split; [|split; [|split; [|split]]].
  - repeat split; auto; cbn; intuition discriminate.
  - intros s. split; intros e I; unfold enums_of, domains_of, of_home in I; apply in_flat_map in I as (h & Ih & I); destruct (beqb_spec (hm_name h) s) as [<-|_]; try contradiction;
      cbn in Ih; repeat (destruct Ih as [<-|Ih]; [vm_compute in I; repeat (destruct I as [<-|I]; [|]); try contradiction I|]); try contradiction Ih.
    + split; [discriminate|left; reflexivity].
    + split; [discriminate|]. split; [|left; reflexivity]. intros c Ic. cbn in Ic. repeat (destruct Ic as [<-|Ic]; [reflexivity|]). contradiction.
  - intros h Ih _. cbn in Ih. repeat (destruct Ih as [<-|Ih]; [vm_compute; first [discriminate|right; reflexivity]|]). contradiction.
  - discriminate.
  - intros s r I. unfold routines_of, of_home in I. apply in_flat_map in I as (h & Ih & I). destruct (beqb_spec (hm_name h) s) as [<-|_]; [|contradiction].
    cbn in Ih. repeat (destruct Ih as [<-|Ih]; [vm_compute in I; repeat (destruct I as [<-|I]; [split; [discriminate|]; split; discriminate|]); contradiction I|]). contradiction.
Qed.
Example C102_example : exists x1 x2 x3,
  read_extras Postgres no_uuid shop = Ok ([B"citext"],
    [Place (B"public") [(Enum (B"mood") [B"sad"; B"ok"], [])]
       [(Domain (B"email") (B"text") (B"en_US") true (B"'x'") [B"c1"; B"c2"] [B"(VALUE ~ '@')"; B"(VALUE <> '')"], [])] [x1; x2];
     Place (B"stock") [] [] [x3]])
  /\ (rt_args x1, rt_args x2, rt_args x3) = (B"a integer", B"a text", []) /\ rt_sql x3 = B"CREATE FUNCTION add() AS $$" ++ [LF] ++ B"SELECT 1$$;".
Proof. eexists _, _, _. split; [vm_compute; reflexivity|]. split; reflexivity. Qed.

(** MySQL and SQL Server. *)
Definition staff : live := my [plain_routine (B"pay") Procedure [(B"IN", B"who", B"int"); (B"OUT", B"sum", B"decimal(8,2)")] (Some (B"SET sum = 1")); plain_routine (B"age") Function [(B"IN", B"who", B"int")] (Some (B"RETURN 1"))].
Lemma staff_clear : live_ok MySQL staff /\ clear_extras MySQL all staff.
Proof.
  split; [solve_live|]. split; [|split; [|split; [|split]]].
  - repeat split; auto; cbn; intuition discriminate.
  - intros s. split; intros e I; unfold enums_of, domains_of, of_home in I; apply in_flat_map in I as (h & Ih & I); destruct (beqb_spec (hm_name h) s) as [<-|_]; try contradiction;
      cbn in Ih; destruct Ih as [<-|[]]; contradiction I.
  - discriminate.
  - discriminate.
  - intros s r I. unfold routines_of, of_home in I. apply in_flat_map in I as (h & Ih & I). destruct (beqb_spec (hm_name h) s) as [<-|_]; [|contradiction].
    cbn in Ih. destruct Ih as [<-|[]]. vm_compute in I. repeat (destruct I as [<-|I]; [split; [discriminate|]; split; [discriminate|]; intros _; split; [discriminate|];
      intros r' I'; cbn in I'; repeat (destruct I' as [<-|I']; [try reflexivity; discriminate|]); contradiction I'|]). contradiction.
Qed.
Example C102_example_mysql : exists x1 x2, read_extras MySQL all staff = Ok ([], [Place (B"db") [] [] [x1; x2]])
  /\ attr x1 (B"parameters") = Some (B"IN who int|OUT sum decimal(8,2)") /\ attr x2 (B"parameters") = Some (B"who int").
Proof. eexists _, _. split; [vm_compute; reflexivity|]. split; reflexivity. Qed.

Print Assumptions C102_partial.
Print Assumptions C102_aggregates.
Print Assumptions C102_no_parameters.
Print Assumptions C102_by_name.
Print Assumptions C102_refuted.
