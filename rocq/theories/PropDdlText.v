(** Property C75: the text of a migration says what the migration does. *)
From Verif Require Import GoStr GoStrFacts ModelSq SpecSql SpecInsert SpecTokens SpecDdl ModelCatalog ModelCache ModelDdl ModelDiff ModelDiffSql ModelDdlText SpecDdlText DdlFiles DiffWitness DdlTextWitness.

(** If all statements of a migration are of the kind described in SpecDdlText.writable, then
    each of its files, read by the rules of the database, consists of these statements, with
    the names, types, defaults, keys and indexes of the catalogs.  Missing are the statements
    that are not writable; see the refutations. *)
Theorem C75_partial : forall d flt ref prefix src dest drop fs w,
  results d flt prefix src dest drop = Ok (fs, w) ->
  (forall f, In f fs -> forall s, In s (fl_stmts f) -> writable d (current_of d src) (collation_of d src) ref s) ->
  exists ts, results_text d flt ref prefix src dest drop = Ok (ts, w)
    /\ Forall2 (file_as d (current_of d src) (collation_of d src) ref) fs ts.
Proof. exact results_read. Qed.
Print Assumptions C75_partial.
(** The hypotheses hold for catalogs with changes of all kinds, in all databases. *)
Example C75_example : forall d, d <> Other ->
  results d no_float (B"m") (shop_old d) (shop_new d) true = Ok (shop d) /\ 5 <= List.length (flat_map fl_stmts (fst (shop d)))
  /\ forall f, In f (fst (shop d)) -> forall s, In s (fl_stmts f) -> writable d (current_of d (shop_old d)) (collation_of d (shop_old d)) no_refs s.
Proof.
  intros d D. split; [destruct d; try contradiction; vm_compute; reflexivity|]. split; [|exact (shop_writable d D)].
  destruct d; try contradiction; vm_compute; repeat constructor.
Qed.
(** One of the texts. *)
Definition texts_of (r : result (list text_file * list warning)) : list text_file := match r with Ok (l, _) => l | _ => [] end.
Example C75_example_text :
  nth_error (map tx_text (texts_of (results_text MySQL no_float no_refs (B"m") (shop_old MySQL) (shop_new MySQL) true))) 2
  = Some (B"ALTER TABLE maker" ++ NL ++ B"    DROP INDEX maker_idx" ++ NL ++ B"    ,ADD COLUMN `first line` INT" ++ NL
          ++ B"    ,MODIFY COLUMN name VARCHAR(100)" ++ NL ++ B"    ,MODIFY COLUMN since INT DEFAULT 1900" ++ NL
          ++ B"    ,ADD INDEX maker_idx2 (since)" ++ NL ++ B"    ,ADD CONSTRAINT maker_key UNIQUE (since)" ++ NL ++ B";" ++ NL).
Proof. vm_compute. reflexivity. Qed.

(** ** Where the claim fails *)
(** Catalogs whose migration has a file that is not read as its statements are meant. *)
Definition misread (d : dialect) (src dest : catalog) : Prop :=
  exists fs ts w, results d no_float (B"m") src dest true = Ok (fs, w) /\ results_text d no_float no_refs (B"m") src dest true = Ok (ts, w)
    /\ ~ Forall2 (file_as d (current_of d src) (collation_of d src) no_refs) fs ts.
Definition texts (d : dialect) (r : result (list text_file * list warning)) : list (option (list (option statement))) :=
  map (fun t => option_map (map (fun x => Some (plainly x))) (script d (tx_text t))) (texts_of r).
Definition meanings (d : dialect) (cur coll : bytes) (l : list file) : list (option (list (option statement))) :=
  map (fun f => Some (map (fun s => option_map plainly (meant d cur coll no_refs s)) (fl_stmts f))) l.
Lemma files_only : forall d cur coll fs ts, Forall2 (file_as d cur coll no_refs) fs ts ->
  map (fun t => option_map (map (fun x => Some (plainly x))) (script d (tx_text t))) ts = meanings d cur coll fs.
Proof.
  intros d cur coll fs ts F. induction F as [|f t fs ts (_ & _ & sts & sts' & M & S & P) F IH]; [reflexivity|]. cbn [map meanings]. unfold meanings in IH. rewrite IH, S. cbn [option_map]. f_equal. f_equal.
  rewrite <- (map_map plainly Some), P, map_map. rewrite <- (map_map (meant d cur coll no_refs) (option_map plainly)), M, map_map. reflexivity.
Qed.
Lemma misread_now : forall d src dest fs ts w, results d no_float (B"m") src dest true = Ok (fs, w) -> results_text d no_float no_refs (B"m") src dest true = Ok (ts, w) ->
  map (fun t => option_map (map (fun x => Some (plainly x))) (script d (tx_text t))) ts <> meanings d (current_of d src) (collation_of d src) fs -> misread d src dest.
Proof. intros d src dest fs ts w H T N. exists fs, ts, w. split; [exact H|]. split; [exact T|]. intros F. exact (N (files_only _ _ _ _ _ F)). Qed.
Ltac misreads d src dest :=
  let x := eval vm_compute in (results d no_float (B"m") src dest true) in
  let y := eval vm_compute in (results_text d no_float no_refs (B"m") src dest true) in
  match x with Ok (?fs, ?w) => match y with Ok (?ts, _) =>
    refine (misread_now d src dest fs ts w _ _ _); [vm_compute; reflexivity|vm_compute; reflexivity|let N := fresh in intro N; vm_compute in N; discriminate N] end end.

Definition colx (n ty : bytes) (notnull : bool) (def coll expr : bytes) (stored : bool) : column :=
  Column (B"s") (B"t") n ty [] [] [] [] false notnull false false false [] def false (negb (is_empty expr)) expr stored coll false.
Definition db (d : dialect) (cols : list column) (cons : list constraint) (ixs : list index) : catalog :=
  one_schema d (B"s") [a_table (B"s") (B"t") cols cons ixs].
Definition none_yet (d : dialect) : catalog := one_schema d (B"s") [].
Definition int_col (n : bytes) : column := colx n (B"INT") false [] [] [] false.
Definition typed_index (n ty : bytes) (classes : list bytes) : index := Index (B"s") (B"t") n ty false [B"x"] [] [] classes [] [] false.

(** Postgres: the name of an altered column is not quoted, so that capitals are lost. *)
Theorem C75_altered_refuted : exists src dest, misread Postgres src dest.
Proof.
  exists (db Postgres [colx (B"MyCol") (B"TEXT") false [] [] [] false] [] []), (db Postgres [colx (B"MyCol") (B"TEXT") true [] [] [] false] [] []).
  misreads Postgres (db Postgres [colx (B"MyCol") (B"TEXT") false [] [] [] false] [] []) (db Postgres [colx (B"MyCol") (B"TEXT") true [] [] [] false] [] []).
Qed.
Print Assumptions C75_altered_refuted.
Definition virtual_expr (d : dialect) (e : bytes) (notnull stored : bool) : column := colx (B"g") (B"INT") notnull [] [] e stored.
Definition matched_fkey : constraint :=
  Constraint (B"s") (B"t") (B"f") FOREIGN_KEY [B"x"; B"y"] (B"s") (B"t") [B"a"; B"b"] [] [] (B"MATCH FULL") [] [] [] [] false false false false false.
(** A migration for each of:
    a type of MySQL with strings is written in capitals;
    a spatial index of MySQL is written as an ordinary index with the method SPATIAL;
    an ordinary index of MySQL with the name SPATIAL loses its method;
    an index with a method that is added to a table of MySQL is not readable;
    NOT NULL is written before the expression of a column in MySQL;
    an expression that begins and ends with brackets which do not belong together;
    MATCH FULL is lost;
    the operator classes of an index are lost;
    a virtual column of SQLite is written as a stored one;
    a table without columns;
    a clustered index of SQL Server is written as an ordinary one;
    a column of SQL Server with a default and a collation. *)
Definition ways : list (dialect * catalog * catalog) :=
  [(MySQL, none_yet MySQL, db MySQL [colx (B"x") (B"ENUM('a','b')") false [] [] [] false] [] []);
   (MySQL, none_yet MySQL, db MySQL [colx (B"x") (B"GEOMETRY") true [] [] [] false] [] [typed_index (B"i") (B"SPATIAL") []]);
   (MySQL, none_yet MySQL, db MySQL [int_col (B"x")] [] [typed_index (B"spatial") (B"HASH") []]);
   (MySQL, db MySQL [int_col (B"x")] [] [], db MySQL [int_col (B"x")] [] [typed_index (B"i") (B"HASH") []]);
   (MySQL, none_yet MySQL, db MySQL [int_col (B"x"); virtual_expr MySQL (B"x + 1") true false] [] []);
   (Postgres, none_yet Postgres, db Postgres [int_col (B"x"); virtual_expr Postgres (B"(x) + (x)") false true] [] []);
   (Postgres, db Postgres (map int_col [B"a"; B"b"; B"x"; B"y"]) [] [], db Postgres (map int_col [B"a"; B"b"; B"x"; B"y"]) [matched_fkey] []);
   (Postgres, none_yet Postgres, db Postgres [colx (B"x") (B"TEXT") false [] [] [] false] [] [typed_index (B"i") (B"GIN") [B"gin_trgm_ops"]]);
   (SQLite, Catalog SQLite [] [] [] [], db SQLite [int_col (B"x"); virtual_expr SQLite (B"x + 1") false false] [] []);
   (Postgres, none_yet Postgres, db Postgres [] [a_check Postgres (B"t") (B"c") (B"1 = 1")] []);
   (SQLServer, none_yet SQLServer, db SQLServer [int_col (B"x")] [] [typed_index (B"i") (B"CLUSTERED") []]);
   (SQLServer, none_yet SQLServer, db SQLServer [colx (B"x") (B"VARCHAR(9)") true (B"'a'") (B"Latin1_General_BIN") [] false] [] [])].
Theorem C75_ways_refuted : forall d src dest, In (d, src, dest) ways -> misread d src dest.
Proof.
  intros d src dest H. unfold ways in H. cbn [In] in H.
  repeat (destruct H as [H|H]; [injection H as <- <- <-; match goal with |- misread ?d ?s ?t => misreads d s t end|]). destruct H.
Qed.
Print Assumptions C75_ways_refuted.
