(** Properties C44, C45, C68 and C69: CSV files written by dump and read by load. *)
From Verif Require Import GoStr GoStrFacts ModelSq ModelDdl ModelCsv SpecCsv CsvFacts CsvFields CsvTables CsvNames.

(** ** C44: values *)
(** The full statement: every value that fits its column is dumped, and what is loaded is that value. *)
Definition C44_statement : Prop := forall fmt out stamp d json uuid t v,
  writes_arrays out -> fits (class_of d t) v ->
  exists f r, dump_field fmt out (dump_defaults d [] [] json uuid) t v = Ok f
    /\ load_field stamp (load_defaults d [] [] false false false) t f = Ok r /\ holds fmt (class_of d t) r v.

(** A writer of arrays for the examples: all elements in quotes. *)
Definition array_out (l : list elem) : bytes :=
  B"{" ++ join (B",") (map (fun e => [dquote] ++ flat_map (fun c => if ceqb c dquote || ceqb c "\"%char then ["\"%char; c] else [c]) (elem_text e) ++ [dquote]) l) ++ B"}".
Definition no_stamp : bytes -> option Z := fun _ => None.
Definition dump1 d t v := dump_field Z_dec array_out (dump_defaults d [] [] true true) t v.
Definition load1 d t f := load_field no_stamp (load_defaults d [] [] false false false) t f.
Definition trip d t v := match dump1 d t v with Ok f => load1 d t f | _ => Panic end.

(** It fails: text that is the null string, empty binary values, fractions of seconds, empty
    and NULL arrays and arrays with escaped characters, UUID columns of SQLite that hold text
    of 16 bytes or blobs of other lengths. *)
Theorem C44_refuted :
  trip Postgres (B"TEXT") (DText (B"\N")) = Ok RNil
  /\ trip MySQL (B"BLOB") (DBlob []) = Ok RNil
  /\ (trip Postgres (B"TIMESTAMPTZ") (DTime 7 500) = trip Postgres (B"TIMESTAMPTZ") (DTime 7 0) /\ trip Postgres (B"TIMESTAMPTZ") (DTime 7 0) = Ok (RString (B"7")))
  /\ (trip Postgres (B"INT[]") (DArray []) = Ok (RString (B"[]")) /\ trip Postgres (B"INT[]") DNull = Ok (RString (B"null")))
  /\ match trip Postgres (B"TEXT[]") (DArray [EText (B"a" ++ [LF] ++ B"b"); EText (B"1<2")]) with
     | Ok (RString s) => pg_array s = Some [B"anb"; B"1u003c2"]
     | _ => False
     end
  /\ trip SQLite (B"UUID") (DText (B"0123456789abcdef")) = Ok (RBytes (B"0123456789abcdef"))
  /\ trip SQLite (B"UUID") (DBlob (B"abc")) = Ok (RString (B"abc")).
Proof. repeat split; vm_compute; reflexivity. Qed.
Print Assumptions C44_refuted.
Lemma array_out_quoted s r : pg_quoted (flat_map (fun c => if ceqb c dquote || ceqb c "\"%char then ["\"%char; c] else [c]) s ++ dquote :: r) = Some (s, r).
Proof.
  induction s as [|c s IH]; [reflexivity|]. cbn [flat_map]. rewrite <- app_assoc. destruct (ceqb_spec c dquote) as [->|N1]; cbn [orb].
  - cbn [app]. cbn [pg_quoted]. change (ceqb "\"%char dquote) with false. change (ceqb "\"%char "\"%char) with true. cbv iota. rewrite IH. reflexivity.
  - destruct (ceqb_spec c "\"%char) as [->|N2].
    + cbn [app]. cbn [pg_quoted]. change (ceqb "\"%char dquote) with false. change (ceqb "\"%char "\"%char) with true. cbv iota. rewrite IH. reflexivity.
    + cbn [app pg_quoted]. destruct (ceqb_spec c dquote); [contradiction|]. destruct (ceqb_spec c "\"%char); [contradiction|]. rewrite IH. reflexivity.
Qed.
Lemma array_out_writes : writes_arrays array_out.
Proof.
  intros l. unfold array_out. set (q := fun e => [dquote] ++ flat_map (fun c => if ceqb c dquote || ceqb c "\"%char then ["\"%char; c] else [c]) (elem_text e) ++ [dquote]).
  assert (K : forall l n, l <> [] -> List.length (join (B",") (map q l)) < n -> pg_elems n (join (B",") (map q l) ++ B"}") = Some (map elem_text l)).
  { clear l. induction l as [|e l IH]; [contradiction|]. intros n _ Hn. destruct n as [|n]; [inversion Hn|].
    destruct l as [|e' l].
    - cbn [map join]. unfold q. rewrite <- !app_assoc. cbn [app pg_elems]. change (ceqb dquote dquote) with true. cbv iota.
      rewrite array_out_quoted. reflexivity.
    - cbn [map] in *. rewrite CsvFacts.join_cons in Hn |- *. rewrite <- !app_assoc. change (B"," ++ ?x) with (comma :: x). unfold q at 1.
      rewrite <- !app_assoc. cbn [app pg_elems]. change (ceqb dquote dquote) with true. cbv iota. rewrite array_out_quoted.
      assert (D : exists y ys, (join (B",") (q e' :: map q l) ++ B"}") = y :: ys)
        by (destruct (join (B",") (q e' :: map q l)); [exists "}"%char, []|eexists; eexists]; reflexivity).
      specialize (IH n ltac:(discriminate)). unfold bytes in *. rewrite IH.
      + destruct D as (y & ys & D). rewrite D. reflexivity.
      + rewrite !app_length in Hn. change (List.length (B",")) with 1 in Hn. lia. }
  unfold pg_array. rewrite strip_prefix_app. destruct l as [|e l]; [reflexivity|].
  destruct (beqb_spec (join (B",") (map q (e :: l)) ++ B"}") (B"}")) as [E|_].
  - exfalso. apply (f_equal (@List.length ascii)) in E. rewrite app_length in E. change (List.length (B"}")) with 1 in E.
    assert (0 < List.length (join (B",") (map q (e :: l)))); [|lia]. 
    assert (Q : 0 < List.length (q e)) by (unfold q; cbn [app Datatypes.length]; lia).
    cbn [map]. destruct l as [|e' l]; [exact Q|]. cbn [map]. rewrite CsvFacts.join_cons, app_length. unfold bytes in *. lia.
  - apply K; [discriminate|]. rewrite app_length. change (List.length (B"}")) with 1. lia.
Qed.
Theorem C44_statement_refuted : ~ C44_statement.
Proof.
  intros H. destruct (H Z_dec array_out no_stamp Postgres true true (B"TEXT") (DText (B"\N")) array_out_writes) as (f & r & E1 & E2 & E3).
  - vm_compute. exact I.
  - vm_compute in E1. injection E1 as <-. vm_compute in E2. injection E2 as <-. inversion E3.
Qed.
Print Assumptions C44_statement_refuted.

(** What holds: a value that is none of these survives.  Missing from the full statement: the
    exceptions in [survives], and values written like the null string. *)
Theorem C44_value_partial : forall fmt out stamp c l t v,
  agree c l -> writes_arrays out -> survives c t v -> (v <> DNull -> dump_field fmt out c t v <> Ok (dp_null c)) ->
  exists f r, dump_field fmt out c t v = Ok f /\ load_field stamp l t f = Ok r /\ holds fmt (class_of (dp_dialect c) t) r v.
Proof.
  intros fmt out stamp c l t v A W S N. apply field_survives; [assumption..|]. destruct v; auto; left; apply N; discriminate.
Qed.
Print Assumptions C44_value_partial.
(** With the default settings only text is mistaken for NULL. *)
Theorem C44_defaults_partial : forall fmt out stamp d json uuid t v,
  writes_arrays out -> (forall z, fmt z <> B"\N") -> survives (dump_defaults d [] [] json uuid) t v -> v <> DText (B"\N") -> v <> DFloat (B"\N") ->
  exists f r, dump_field fmt out (dump_defaults d [] [] json uuid) t v = Ok f
    /\ load_field stamp (load_defaults d [] [] false false false) t f = Ok r /\ holds fmt (class_of d t) r v.
Proof.
  intros fmt out stamp d json uuid t v W Hf S N1 N2.
  apply (C44_value_partial fmt out stamp (dump_defaults d [] [] json uuid) (load_defaults d [] [] false false false) t v).
  - repeat split; discriminate.
  - exact W.
  - exact S.
  - intros N0. apply default_not_null; assumption.
Qed.
Print Assumptions C44_defaults_partial.
(** The value is determined by what was loaded. *)
Theorem C44_same_value_partial : forall fmt k r v w,
  (forall a b, fmt a = fmt b -> a = b) -> holds fmt k r v -> holds fmt k r w -> same_value v w.
Proof. exact holds_determined. Qed.
Print Assumptions C44_same_value_partial.
(** Whole tables, through the text of the file. *)
Theorem C44_table_partial : forall fmt out stamp sp c l names types type_of rows,
  agree c l -> writes_arrays out -> one_line fmt out c -> dp_null c <> [] ->
  List.length names = List.length types -> Forall no_crlf names -> names <> [] -> names <> [[]] -> map type_of names = types ->
  Forall (row_survives fmt out c types) rows ->
  exists text vals, dump_table fmt out sp c names types rows false = Ok text
    /\ load_table stamp l type_of text = Ok (names, vals)
    /\ Forall2 (fun vs row => Forall2 (fun p => holds fmt (class_of (dp_dialect c) (fst p)) (snd p)) (combine types vs) row) vals rows.
Proof.
  intros fmt out stamp sp c l names types type_of rows A W O Hn Hl Hc N1 N2 Ht Hr. apply table_survives; auto.
  destruct names as [|[|? ?] [|? ?]]; auto; contradiction.
Qed.
Print Assumptions C44_table_partial.
(** Beyond single values: a row of one empty text is lost, line ends change, and in MySQL a
    table without primary key gets the text of its binary values. *)
Theorem C44_table_refuted :
  let c := dump_defaults MySQL [] [] false false in
  let l := load_defaults MySQL [] [] false false false in
  let sp := fun _ => false in
  (exists text, dump_table Z_dec array_out sp c [B"a"] [B"TEXT"] [[DText (B"x")]; [DText []]; [DText (B"y")]] false = Ok text
     /\ load_table no_stamp l (fun _ => B"TEXT") text = Ok ([B"a"], [[RString (B"x")]; [RString (B"y")]]))
  /\ (exists text, dump_table Z_dec array_out sp c [B"a"] [B"TEXT"] [[DText (B"x" ++ [CR; LF] ++ B"y")]] false = Ok text
     /\ load_table no_stamp l (fun _ => B"TEXT") text = Ok ([B"a"], [[RString (B"x" ++ [LF] ++ B"y")]]))
  /\ (exists text, dump_table Z_dec array_out sp c [B"a"] [B"BLOB"] [[DBlob (B"x")]] false = Ok text
     /\ load_table no_stamp l (fun _ => loaded_type MySQL false (B"BLOB")) text = Ok ([B"a"], [[RString (B"0x78")]])).
Proof. repeat split; eexists; vm_compute; split; reflexivity. Qed.
Print Assumptions C44_table_refuted.

(** An example with all kinds of values. *)
Definition ex_names := [B"id"; B"note"; B"data"; B"at"; B"tags"; B"uid"; B"ok"].
Definition ex_types := [B"INT"; B"TEXT"; B"BYTEA"; B"TIMESTAMPTZ"; B"TEXT[]"; B"UUID"; B"BOOLEAN"].
Definition ex_type_of (n : bytes) : bytes := match find (fun p => beqb (fst p) n) (combine ex_names ex_types) with Some (_, t) => t | None => [] end.
Definition ex_conf := dump_defaults Postgres [] [] true true.
Definition ex_uuid := B"0123456789abcdef".
Definition ex_row := [DInt (-5); DText (B"say ""hi"", \" ++ [LF] ++ B" bye"); DBlob (B"ab"); DTime 12 0; DArray [EText (B"a\""b,"); EInt 3]; DText (uuid_text ex_uuid); DBool true].
Lemma ex_agree : agree ex_conf (load_defaults Postgres [] [] false false false).
Proof. repeat split; discriminate. Qed.
Lemma ex_survives : row_survives Z_dec array_out ex_conf ex_types ex_row.
Proof.
  split; [|intros v D; discriminate D].
  assert (no : forall s, existsb (ceqb CR) s = false -> no_crlf s).
  { intros s H. apply no_cr_crlf. intros I. assert (T : existsb (ceqb CR) s = true) by (apply existsb_exists; exists CR; split; [exact I|reflexivity]). congruence. }
  repeat apply Forall2_cons; try apply Forall2_nil; (split; [|split; [right; vm_compute; discriminate|]]); cbn [keeps_lines ex_row];
    try exact I; try (apply no; vm_compute; reflexivity); (split; [vm_compute; exact I|]); try exact I.
  - intros H. discriminate H.
  - intros _. discriminate.
  - reflexivity.
  - intros _. split; [discriminate|]. repeat constructor; cbn; try lia; discriminate.
  - intros _. left. split; [reflexivity|]. split; [reflexivity|].
    exists (B"30313233"), (B"3435"), (B"3637"), (B"3839"), (B"616263646566"). repeat split; repeat (apply Forall_cons; [cbn; tauto|]); apply Forall_nil.
Qed.
Example C44_example :
  match dump_table Z_dec array_out (fun _ => false) ex_conf ex_names ex_types [ex_row; [DInt 6; DNull; DNull; DNull; DArray [EText []]; DNull; DBool false]] false with
  | Ok text => text = B"id,note,data,at,tags,uid,ok" ++ [LF]
      ++ B"-5,""say """"hi"""", \" ++ [LF] ++ B" bye"",0x6162,12,""[""""a\\\""""b,"""",3]"",0x30313233343536373839616263646566,1" ++ [LF]
      ++ B"6,\N,\N,\N,""[""""""""]"",\N,0" ++ [LF]
      /\ load_table no_stamp (load_defaults Postgres [] [] false false false) ex_type_of text
         = Ok (ex_names, [[RString (B"-5"); RString (B"say ""hi"", \" ++ [LF] ++ B" bye"); RBytes (B"ab"); RString (B"12"); RString (B"{""a\\\""b,"",3}");
                           RString (B"30313233-3435-3637-3839-616263646566"); RString (B"1")];
                          [RString (B"6"); RNil; RNil; RNil; RString (B"{""""}"); RNil; RString (B"0")]])
  | _ => False
  end.
Proof. vm_compute. split; reflexivity. Qed.

(** ** C45: names *)
Definition C45_statement : Prop := forall current dir schema table,
  in_dir dir -> ~ In "/"%char schema -> ~ In "/"%char table -> table <> [] ->
  load_name current (dir ++ csv_name current schema table) = (if beqb schema [] then current else schema, table).
Theorem C45_refuted :
  load_name (B"public") (B"out/" ++ csv_name (B"public") (B"public") (B"2020_data")) = (B"public", B"data")
  /\ load_name (B"public") (B"out/" ++ csv_name (B"public") (B"public") (B"_prisma_migrations")) = (B"public", B"prisma_migrations")
  /\ load_name (B"public") (B"out/" ++ csv_name (B"public") (B"public") (B"log.2020")) = (B"log", B"2020")
  /\ csv_name (B"public") (B"public") (B"log.2020") = csv_name (B"public") (B"log") (B"2020").
Proof. vm_compute. auto. Qed.
Print Assumptions C45_refuted.
(** Exactly these names come back.  Missing from the full statement: all other names. *)
Theorem C45_names_partial : forall current dir schema table,
  in_dir dir -> ~ In "/"%char schema -> ~ In "/"%char table ->
  (load_name current (dir ++ csv_name current schema table) = (if beqb schema [] then current else schema, table)
   <-> name_survives current schema table).
Proof. intros current dir schema table Hd H1 H2. split; [apply name_ok_only|apply name_ok]; assumption. Qed.
Print Assumptions C45_names_partial.
(** So different tables have different files. *)
Theorem C45_files_differ_partial : forall current s1 t1 s2 t2,
  ~ In "/"%char s1 -> ~ In "/"%char t1 -> ~ In "/"%char s2 -> ~ In "/"%char t2 ->
  name_survives current s1 t1 -> name_survives current s2 t2 -> csv_name current s1 t1 = csv_name current s2 t2 ->
  t1 = t2 /\ (s1 = s2 \/ (home current s1 /\ home current s2)).
Proof.
  intros current s1 t1 s2 t2 A1 A2 A3 A4 N1 N2 E.
  pose proof (name_ok current [] s1 t1 (or_introl eq_refl) A1 A2 N1) as E1. pose proof (name_ok current [] s2 t2 (or_introl eq_refl) A3 A4 N2) as E2.
  rewrite E, E2 in E1. injection E1 as E1 E3. split; [auto|]. unfold home.
  destruct (beqb_spec s1 []), (beqb_spec s2 []); subst; auto.
Qed.
Print Assumptions C45_files_differ_partial.
Example C45_example : name_survives (B"public") (B"sales") (B"2020.q1_totals")
  /\ load_name (B"public") (B"out/" ++ csv_name (B"public") (B"sales") (B"2020.q1_totals")) = (B"sales", B"2020.q1_totals").
Proof.
  split; [|reflexivity].
  assert (H : ~ home (B"public") (B"sales")) by (intros [D|D]; discriminate D).
  split; [split; [contradiction|]|split; [contradiction|]]; intros _.
  - intros X. apply starts_with_number_iff in X. discriminate X.
  - cbn. intuition discriminate.
Qed.

(** ** C68: the documented reading of file names *)
Theorem C68_refuted : documented (B"_actor") None (B"_actor") /\ load_name (B"public") (B"_actor" ++ B".csv") = (B"public", B"actor").
Proof.
  split; [|reflexivity]. constructor; [cbn; intuition discriminate|]. intros ds r N F E. destruct F as [|c ds H F]; [contradiction|]. injection E as <- _. discriminate H.
Qed.
Print Assumptions C68_refuted.
(** Missing: names that begin with an underscore or a dot. *)
Theorem C68_partial : forall current dir n s t,
  in_dir dir -> ~ In "/"%char n -> documented n s t -> has_prefix n (B"_") = false -> s <> Some [] ->
  load_name current (dir ++ n ++ B".csv") = (match s with Some x => x | None => current end, t).
Proof. exact documented_read. Qed.
Print Assumptions C68_partial.
Example C68_example : documented (B"01_public.my table") (Some (B"public")) (B"my table").
Proof. apply (doc_number_schema (B"01") (B"public") (B"my table")); [discriminate|repeat constructor|cbn; intuition discriminate]. Qed.

(** ** C69: a dump that succeeds is complete *)
(** The full statement: if reading the rows breaks off, the dump fails. *)
Definition C69_statement : Prop := forall fmt out sp c names types rows text, dump_table fmt out sp c names types rows true <> Ok text.
Theorem C69_refuted : exists text,
  dump_table Z_dec array_out (fun _ => false) ex_conf [B"id"] [B"INT"] [[DInt 1]] true = Ok text.
Proof. eexists. vm_compute. reflexivity. Qed.
Print Assumptions C69_refuted.
(** What holds: the rows that were delivered are all in the file. *)
Theorem C69_delivered_partial : forall fmt out sp c names types rows broke text,
  dump_table fmt out sp c names types rows broke = Ok text ->
  exists recs, Forall2 (fun row rec => dump_row fmt out c types row = Ok rec) rows recs
    /\ ((forall r, In r (names :: recs) -> r <> [] /\ r <> [[]] /\ Forall no_crlf r) -> csv_parse text = names :: recs).
Proof.
  intros fmt out sp c names types rows broke text H. unfold dump_table in H.
  assert (K : exists recs, mapr (dump_row fmt out c types) rows = Ok recs /\ Forall2 (fun row rec => dump_row fmt out c types row = Ok rec) rows recs).
  { destruct (mapr (dump_row fmt out c types) rows) as [recs| |] eqn:E; try discriminate H. clear H. exists recs. split; [reflexivity|]. revert recs E.
    induction rows as [|r rows IH]; intros recs E; cbn [mapr] in E; [injection E as <-; constructor|].
    destruct (dump_row fmt out c types r) eqn:E1; try discriminate E. cbn [bindr] in E. destruct (mapr (dump_row fmt out c types) rows) eqn:E2; try discriminate E.
    cbn [bindr] in E. injection E as <-. constructor; auto. }
  destruct K as (recs & K1 & K2). rewrite K1 in H. cbn [bindr] in H. injection H as <-. exists recs. split; [exact K2|]. intros V.
  change (csv_parse (csv_write sp (names :: recs)) = names :: recs). rewrite parse_write. induction (names :: recs) as [|r rs IH]; [reflexivity|]. destruct (V r (or_introl eq_refl)) as (V1 & V2 & V3).
  assert (Vr : visible r = true) by (destruct r as [|[|? ?] [|? ?]]; auto; contradiction).
  cbn [filter]. rewrite Vr. cbn [map]. rewrite (nl_ids r V3), IH by (intros x I; apply V; right; exact I). reflexivity.
Qed.
Print Assumptions C69_delivered_partial.
