(** C98: schema-qualified structs.  C99: the file that sqddl tables and views write. *)
From Coq Require Import Lia.
From Verif Require Import GoStr GoStrFacts ModelCatalog ModelCache ModelDiff ModelGoTag ModelModifier ModelStructs ModelParser SpecGo SpecStructs GoText StructsText
  DiffLookup DiffWitness ModelViews SpecViews ModelTables SpecTables TablesFacts PropStructs.

(** ** C98 *)
(** With -schema-qualified-structs every table has a struct of its own, which stands for it. *)
Definition C98_full : Prop := forall cat l, writable cat -> schema_words cat -> different_tables cat -> tables_structs true cat = Ok l ->
  own_structs (ct_current cat) (marshal_text l) (tables_of cat).

(** What is written for catalogs whose names can be in Go identifiers. *)
Lemma tables_written : forall cat l, writable cat -> schema_words cat -> tables_structs true cat = Ok l ->
  exists l0, read_catalog cat = Ok l0 /\ l = map (qualify (ct_current cat)) l0 /\
    go_declarations (marshal_text l0) = Some (map go_struct_of l0) /\ go_declarations (marshal_text l) = Some (map go_struct_of l) /\
    Forall2 (fun t s => shaped cat t s (qualify (ct_current cat) s) /\ struct_ok s /\ struct_ok (qualify (ct_current cat) s)) (tables_of cat) l0.
Proof.
  intros cat l W (C & S) E. unfold tables_structs in E. apply bindr_inv in E as (l0 & E0 & E). injection E as <-. exists l0.
  assert (T : Forall table_ok (tables_of cat)).
  { apply Forall_forall. intros t Ht. apply in_flat_map in Ht as (s & Hs & Ht). exact (W s t Hs Ht). }
  pose proof (all_shaped cat _ l0 T S C E0) as A. split; [exact E0|]. split; [reflexivity|].
  assert (A1 : Forall struct_ok l0) by (clear - A; induction A as [|t s ts l (_ & K & _) A IH]; constructor; assumption).
  assert (A2 : Forall struct_ok (map (qualify (ct_current cat)) l0)) by (clear - A; induction A as [|t s ts l (_ & _ & K) A IH]; cbn [map]; constructor; assumption).
  split; [apply (proj1 (text_read_back l0 A1))|]. split; [apply (proj1 (text_read_back _ A2))|exact A].
Qed.
(** Each struct stands for its table. *)
Theorem C98_tables : forall cat l, writable cat -> schema_words cat -> tables_structs true cat = Ok l ->
  exists gs, go_declarations (marshal_text l) = Some gs /\ Forall2 (stands_for (ct_current cat)) gs (tables_of cat).
Proof.
  intros cat l W S E. destruct (tables_written cat l W S E) as (l0 & E0 & -> & _ & G & A). exists (map go_struct_of (map (qualify (ct_current cat)) l0)).
  split; [exact G|]. destruct S as (C & S).
  assert (T : Forall table_ok (tables_of cat)).
  { apply Forall_forall. intros t Ht. apply in_flat_map in Ht as (s & Hs & Ht). exact (W s t Hs Ht). }
  clear - A C S T. revert S T. induction A as [|t s ts l (Sh & K & K') A IH]; intros S T; [constructor|]. inversion S; subst. inversion T as [|? ? T1 T2]; subst. cbn [map].
  constructor; [|apply IH; assumption]. eapply shaped_says; [exact (proj1 T1)|assumption|exact C|exact Sh|exact K'].
Qed.
(** But for the names of the structs and of the tables nothing is changed by the flag. *)
Theorem C98_same : forall cat l l0, writable cat -> schema_words cat -> tables_structs true cat = Ok l -> tables_structs false cat = Ok l0 ->
  exists gs gs0, go_declarations (marshal_text l) = Some gs /\ go_declarations (marshal_text l0) = Some gs0 /\ Forall2 same_otherwise gs0 gs.
Proof.
  intros cat l l0 W S E E'. destruct (tables_written cat l W S E) as (l1 & E0 & -> & G0 & G & A).
  unfold tables_structs in E'. rewrite E0 in E'. injection E' as <-. do 2 eexists. split; [exact G|]. split; [exact G0|].
  clear - A. induction A as [|t s ts l (Sh & K & K') A IH]; cbn [map]; constructor; [eapply shaped_same; eassumption|exact IH].
Qed.
(** Proved for schemas whose names have no underscores and spaces.  Missing: the other catalogs,
    for which it does not hold. *)
Theorem C98_partial : forall cat l, writable cat -> schema_words cat -> far_apart cat -> tables_structs true cat = Ok l ->
  own_structs (ct_current cat) (marshal_text l) (tables_of cat).
Proof.
  intros cat l W S F E. destruct (C98_tables cat l W S E) as (gs & G & St). exists gs. split; [exact G|]. split; [|exact St].
  destruct (tables_written cat l W S E) as (l0 & _ & -> & _ & G' & A). rewrite G in G'. injection G' as ->. rewrite map_map.
  assert (N : map (fun s => gs_name (go_struct_of s)) (map (qualify (ct_current cat)) l0)
    = map (fun t => qualified_name (schema_or (ct_current cat) (tb_schema t)) (tb_name t)) (tables_of cat)).
  { clear - A. induction A as [|t s ts l (Sh & _) A IH]; [reflexivity|]. cbn [map]. rewrite IH. f_equal. destruct Sh as (mods & fields & _ & ->). reflexivity. }
  rewrite map_map in N. rewrite map_map, N. apply far_names, F.
Qed.
(** It does not hold: schema "a" with the table "b_c" and schema "a_b" with the table "c". *)
Definition plain_table (s n : bytes) : table := a_table s n [a_column (B"id") (B"INT")] [] [].
Definition entangled : catalog := a_catalog Postgres (B"public")
  [Schema (B"a") [plain_table (B"a") (B"b_c")] false; Schema (B"a_b") [plain_table (B"a_b") (B"c")] false].
Lemma writable_of : forall cat, forallb (fun s => forallb is_table_ok (sc_tables s)) (ct_schemas cat) = true -> writable cat.
Proof. intros cat H s t Hs Ht. rewrite forallb_forall in H. specialize (H s Hs). rewrite forallb_forall in H. apply table_ok_of, H, Ht. Qed.
Lemma words_of : forall cat, is_go_word (ct_current cat) && forallb (fun t => is_go_word (tb_schema t)) (tables_of cat) = true -> schema_words cat.
Proof.
  intros cat H. apply andb_true_iff in H as (A & B0). split; [right; apply go_word_of, A|]. apply Forall_forall. intros t Ht. right.
  rewrite forallb_forall in B0. apply go_word_of, B0, Ht.
Qed.
Ltac distinct := repeat constructor; cbn; intuition discriminate.
Theorem C98_refuted : ~ C98_full.
Proof.
  intro H. destruct (H entangled _ (writable_of entangled eq_refl) (words_of entangled eq_refl) ltac:(vm_compute; distinct) eq_refl) as (gs & G & N & _).
  vm_compute in G. injection G as <-. cbn in N. inversion N as [|? ? X _]; subst. apply X. left. reflexivity.
Qed.

(** ** C99 *)
(** The file is Go source of the package that is named, or of the package named by the directory
    of the file, and declares the structs. *)
Definition C99_full : Prop := forall format pkg file text gs, formats format -> go_declarations text = Some gs -> file <> [] ->
  exists out p, go_output format pkg file text = Ok (Some out) /\ go_source p out gs.
(** A formatter for the witnesses: the text itself. *)
Lemma formats_same : formats (fun t => Some t).
Proof. intro text. destruct (go_declarations text) as [gs|] eqn:E; [exists text; auto|exact I]. Qed.
Definition a_struct : bytes := B"type ACTOR struct {" ++ [LF; TAB] ++ B"sq.TableStruct" ++ [LF] ++ B"}" ++ [LF].
(** What the file is when a package cannot be named so. *)
Lemma not_source : forall p body gs, (is_ident p = false \/ p = B"_") -> ~ In LF p -> forall q, ~ go_source q (go_header p ++ body) gs.
Proof.
  intros p body gs H L q (I & N & b & E & _). unfold go_header in E. rewrite <- !app_assoc in E. apply app_inv_head in E.
  assert (Lq : ~ In LF q).
  { intro X. destruct q as [|x q]; [discriminate|]. unfold is_ident in I. apply andb_true_iff in I as (I & _). apply andb_true_iff in I as (_ & I). rewrite forallb_forall in I.
    specialize (I LF X). discriminate. }
  cbn [app] in E. pose proof (cut_byte_app LF p (LF :: (B"import ""github.com/bokwoon95/sq""" ++ [LF; LF] ++ body)) L) as C1.
  pose proof (cut_byte_app LF q (LF :: (B"import ""github.com/bokwoon95/sq""" ++ [LF; LF] ++ b)) Lq) as C2. cbn [app] in C1, C2. rewrite E, C2 in C1. injection C1 as -> _.
  destruct H as [H|H]; congruence.
Qed.
(** A file in the directory "my-app". *)
Theorem C99_refuted : ~ C99_full.
Proof.
  intro H. destruct (H (fun t => Some t) [] (B"my-app/tables.go") a_struct _ formats_same eq_refl ltac:(discriminate)) as (out & p & E & S).
  assert (Q : out = go_header (B"my-app") ++ a_struct) by (vm_compute in E |- *; congruence). rewrite Q in S. revert S.
  apply not_source; [left; vm_compute; reflexivity|vm_compute; intuition discriminate].
Qed.
(** A file in the current directory, and one in the parent directory: "package _", "package ..". *)
Theorem C99_refuted_here : forall file format text out gs, ~ In "/"%char file -> go_output format [] file text = Ok (Some out) -> forall p, ~ go_source p out gs.
Proof.
  intros file format text out gs S E p. unfold go_output in E. destruct (is_empty text); [discriminate|]. destruct (format text) as [body|]; [|discriminate]. injection E as <-.
  assert (Q : package_name [] file = B"_").
  { unfold package_name, dir. rewrite split_none by exact S. destruct (is_empty file); reflexivity. }
  rewrite Q. apply not_source; [right; reflexivity|vm_compute; intuition discriminate].
Qed.
Theorem C99_refuted_parent : exists out, go_output (fun t => Some t) [] (B"../tables.go") a_struct = Ok (Some out) /\ firstn 11 out = B"package .." ++ [LF].
Proof. eexists. split; vm_compute; reflexivity. Qed.
(** When there are no tables any more, the file is left as it was. *)
Theorem C99_refuted_empty : forall format pkg file, go_declarations [] = Some [] /\ go_output format pkg file (marshal_text []) = Ok None.
Proof. intros. split; reflexivity. Qed.

(** Proved for packages that are given and for directories with names that are Go identifiers once
    spaces are underscores, if there are any structs.  Missing: the other names, for which it does
    not hold. *)
Lemma some_text : forall text gs, go_declarations text = Some gs -> gs <> [] -> is_empty text = false.
Proof. intros text gs G N. destruct text; [vm_compute in G; congruence|reflexivity]. Qed.
Theorem C99_partial : forall format pkg file text gs p, formats format -> go_declarations text = Some gs -> gs <> [] -> is_ident p = true -> p <> B"_" ->
  (pkg = p \/ pkg = [] /\ exists d, ordinary d /\ in_directory file d /\ p = replace_byte SPACE (B"_") d) ->
  exists out, go_output format pkg file text = Ok (Some out) /\ go_source p out gs.
Proof.
  intros format pkg file text gs p F G N I Nb H. specialize (F text). rewrite G in F. destruct F as (body & Ef & Gb). unfold go_output.
  rewrite (some_text _ _ G N), Ef. eexists. split; [reflexivity|]. assert (Np : is_empty p = false) by (destruct p; [discriminate I|reflexivity]).
  assert (Q : package_name pkg file = p).
  { unfold package_name. destruct H as [-> |(-> & d & O & D & ->)].
    - rewrite Np. cbn [andb]. rewrite Np. reflexivity.
    - assert (Fe : is_empty file = false).
      { destruct D as (q & f & idle & _ & _ & [-> | ->]); [destruct d; [destruct O; congruence|reflexivity]|]. destruct q; reflexivity. }
      rewrite Fe. cbn [is_empty andb negb]. rewrite (dir_is _ _ O D). destruct O as (O1 & _ & O2 & _).
      assert (is_empty d = false) as -> by (destruct d; [congruence|reflexivity]). destruct (beqb_spec d (B".")); [contradiction|]. cbn [negb andb]. rewrite Np. reflexivity. }
  rewrite Q. split; [exact I|]. split; [exact Nb|]. exists body. split; [|exact Gb]. unfold go_header. rewrite <- !app_assoc. reflexivity.
Qed.
(** If the text is no Go source, nothing is written, provided that the formatter rejects it. *)
Theorem C99_rejected : forall format pkg file text, text <> [] -> format text = None -> go_output format pkg file text = Err.
Proof. intros format pkg file text N F. unfold go_output. destruct text; [congruence|]. cbn [is_empty]. rewrite F. reflexivity. Qed.

(** ** Cases that meet the hypotheses *)
Example films_apart : writable films /\ schema_words films /\ far_apart films.
Proof.
  split; [exact films_writable|]. split; [apply words_of; vm_compute; reflexivity|]. split; [|split; [vm_compute; distinct|left; discriminate]].
  intros t c Ht Hc. cbn in Ht. destruct Ht as [<-|[<-|[]]]; vm_compute in Hc; repeat (destruct Hc as [<-|Hc]; [split; discriminate|]); destruct Hc.
Qed.
Example films_names : match tables_structs true films with Ok l => map ts_name l | _ => [] end = [B"PUBLIC_FILM"; B"STOCK_FILM_COPY"].
Proof. vm_compute. reflexivity. Qed.
Example a_file : exists out, go_output (fun t => Some t) [] (B"/home/me/src/../my db/.//tables.go") a_struct = Ok (Some out) /\ go_source (B"my_db") out [GoStruct (B"ACTOR") [GoField [] (Selector (B"sq") (B"TableStruct")) None]].
Proof.
  apply C99_partial; [exact formats_same|vm_compute; reflexivity|discriminate|vm_compute; reflexivity|discriminate|right]. split; [reflexivity|]. exists (B"my db").
  split; [repeat split; vm_compute; intuition discriminate|]. split; [|vm_compute; reflexivity].
  exists (B"/home/me/src/.."), (B"tables.go"), [B"."; []]. split; [vm_compute; intuition discriminate|]. split; [auto|right; reflexivity].
Qed.

Print Assumptions C98_refuted.
Print Assumptions C98_tables.
Print Assumptions C98_same.
Print Assumptions C98_partial.
Print Assumptions C99_refuted.
Print Assumptions C99_refuted_here.
Print Assumptions C99_refuted_parent.
Print Assumptions C99_refuted_empty.
Print Assumptions C99_partial.
Print Assumptions C99_rejected.
