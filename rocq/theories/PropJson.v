(** C109: the schema.json that dump writes is read back as the same catalog.
    C110: several schema.json files given as sources are read as one catalog with the tables of all. *)
From Coq Require Import Lia.
From Verif Require Import GoStr GoStrFacts ModelCatalog ModelDiff ModelDsn ModelTables TablesFacts ModelSources ModelJson SpecJson JsonFacts JsonStore JsonMended.

Lemma utf8_ascii : forall s, Forall (fun c => (bv c <? 128)%N = true) s -> utf8 s.
Proof.
  intros s F. exists (map bv s). split.
  - apply Forall_forall. intros n I. apply in_map_iff in I. destruct I as (c & <- & I). rewrite Forall_forall in F. specialize (F c I). left. apply N.ltb_lt in F. lia.
  - induction F as [|c s Hc F IH]; [reflexivity|]. cbn [map flat_map]. rewrite <- IH. unfold char_bytes. rewrite Hc. unfold bv. rewrite ascii_N_embedding. reflexivity.
Qed.
Definition ascii_only (s : bytes) : bool := forallb (fun c => (bv c <? 128)%N) s.
Lemma utf8_ascii_only : forall s, ascii_only s = true -> utf8 s.
Proof. intros s H. apply utf8_ascii. apply Forall_forall. apply forallb_forall. exact H. Qed.
Fixpoint goodb (t : shape) : bool :=
  match t with
  | TList t => goodb t
  | TStruct fs => (fix nodup (l : list bytes) := match l with [] => true | x :: l' => negb (bmem x l') && nodup l' end) (map fst fs)
                  && forallb (fun f => goodb (snd f) && ascii_only (fst f)) fs
  | _ => true
  end.
Lemma goodb_good : forall t, goodb t = true -> good t.
Proof.
  fix IH 1. intros [| | |t| |fs] H; try constructor.
  - apply IH, H.
  - cbn [goodb] in H. apply andb_true_iff in H. destruct H as (H & _). induction (map fst fs) as [|x l IHl]; [constructor|]. apply andb_true_iff in H. destruct H as (Hx & Hl).
    constructor; [|apply IHl, Hl]. intros I. rewrite (proj2 (bmem_In x l) I) in Hx. discriminate Hx.
  - cbn [goodb] in H. apply andb_true_iff in H. destruct H as (_ & H). induction fs as [|f fs IHf]; [constructor|]. cbn [forallb] in H. apply andb_true_iff in H. destruct H as (Hf & Hr).
    apply andb_true_iff in Hf. destruct Hf as (Hg & Ha). constructor; [split; [apply IH, Hg|apply utf8_ascii_only, Ha]|apply IHf, Hr].
Qed.
Lemma catalog_good : good catalog_shape.
Proof. apply goodb_good. vm_compute. reflexivity. Qed.

Fixpoint orderedb (m : list (bytes * bytes)) : bool :=
  match m with [] => true | p :: m' => forallb (fun q => bltb (fst p) (fst q)) m' && orderedb m' end.
Fixpoint fitsb (t : shape) (v : gval) {struct v} : bool :=
  match v, t with
  | GString _, TString | GBool _, TBool => true
  | GInt z, TInt => ((- 2 ^ 63 <=? z) && (z <? 2 ^ 63))%Z
  | GList l, TList t => forallb (fitsb t) l
  | GMap m, TMap => orderedb m
  | GStruct vs, TStruct fs =>
      (fix both (fs : list (bytes * shape)) (vs : list (bytes * gval)) {struct vs} : bool :=
         match fs, vs with
         | [], [] => true
         | f :: fs', v :: vs' => beqb (fst f) (fst v) && fitsb (snd f) (snd v) && both fs' vs'
         | _, _ => false
         end) fs vs
  | _, _ => false
  end.
Lemma fitsb_fits : forall v t, fitsb t v = true -> fits t v.
Proof.
  intros v. induction v as [s|b|z|l IH|m|vs IH] using gval_ind'; intros t H; destruct t as [| | |t| |fs]; try discriminate H; try constructor.
  - cbn [fitsb] in H. apply andb_true_iff in H. destruct H as (H1 & H2). apply Z.leb_le in H1. apply Z.ltb_lt in H2. split; assumption.
  - cbn [fitsb] in H. rewrite forallb_forall in H. rewrite Forall_forall in *. intros x I. apply IH; [exact I|apply H, I].
  - cbn [fitsb] in H. induction m as [|p m IH]; [exact Logic.I|]. cbn [orderedb] in H. apply andb_true_iff in H. destruct H as (H1 & H2). split; [apply forallb_forall, H1|apply IH, H2].
  - cbn [fitsb] in H. revert fs H. induction IH as [|v vs Hv IH IHf]; intros [|f fs] H; try discriminate H; [constructor|].
    apply andb_true_iff in H. destruct H as (H & H3). apply andb_true_iff in H. destruct H as (H1 & H2). apply beqb_eq in H1.
    constructor; [split; [exact H1|apply Hv, H2]|apply IHf, H3].
Qed.

(** ** C109 *)
Theorem C109 : forall v, fits catalog_shape v -> texts_utf8 v -> read_catalog (encode_value v) empty_catalog = Ok v.
Proof.
  intros v F U. unfold read_catalog, empty_catalog. rewrite decode_encode; [|apply catalog_good|exact F|exact U|apply zero_fits, catalog_good].
  rewrite overlay_zero by exact F. reflexivity.
Qed.
(** In a file, in the directory of a dump, and in an archive without another schema.json. *)
Theorem C109_sources : forall (T : tools gval) history v, t_json T = read_catalog -> fits catalog_shape v -> texts_utf8 v ->
  (forall a, open_ T (a ++ B".json") = File_ (encode_value v) -> write_catalog T history (a ++ B".json") empty_catalog = Ok v) /\
  (forall dir, is_dir T dir = true -> (forall e, In e [B".json"; B".go"; B".go.txt"; B".zip"; B".tgz"; B".tar.gz"] -> has_suffix dir e = false) ->
     open_ T (dir ++ B"/schema.json") = File_ (encode_value v) -> write_catalog T history dir empty_catalog = Ok v) /\
  (forall (zip : bool) c es, (if zip then t_unzip T c else t_untar T c) = Some es -> In (B"schema.json", encode_value v) es ->
     (forall e, In e es -> base (fst e) = B"schema.json" -> e = (B"schema.json", encode_value v)) -> from_archive T zip c empty_catalog = Ok v).
Proof.
  intros T history v J F U. split; [|split].
  - intros a O. unfold write_catalog. rewrite has_suffix_app. unfold with_content. rewrite O, J. apply C109; assumption.
  - intros dir D S O. unfold write_catalog. rewrite !S by (cbn; tauto). cbn [orb]. rewrite D. unfold with_content. rewrite O, J. apply C109; assumption.
  - intros zip c es E I H. unfold from_archive. rewrite E. destruct (find (schema_entry zip) es) as [e|] eqn:X.
    + apply find_some in X. destruct X as (Ie & Se). rewrite (H e Ie); [rewrite J; apply C109; assumption|]. unfold schema_entry in Se. apply andb_true_iff in Se. apply beqb_eq, Se.
    + exfalso. pose proof (find_none _ _ X _ I) as Z. unfold schema_entry in Z. cbn [fst] in Z. destruct zip; vm_compute in Z; discriminate Z.
Qed.
(** A destination takes over the dialect and the current schema of the source before it is read, generate_cmd.go:114-143:
    they are left only if the file has none. *)
Definition prepared (dialect current : bytes) : gval :=
  GStruct (set_field (set_field (match empty_catalog with GStruct vs => vs | _ => [] end) (B"Dialect") (GString dialect)) (B"CurrentSchema") (GString current)).
Theorem C109_destination : forall v d c, fits catalog_shape v -> texts_utf8 v -> text_of (part (B"Dialect") v) <> [] -> text_of (part (B"CurrentSchema") v) <> [] ->
  read_catalog (encode_value v) (prepared d c) = Ok v.
Proof.
  intros v d c F U D C. unfold read_catalog. assert (P : fits catalog_shape (prepared d c)) by (vm_compute; repeat constructor).
  rewrite decode_encode; [|apply catalog_good|exact F|exact U|exact P]. f_equal. clear U P. pose proof (overlay_zero v _ F) as Z.
  inversion F as [| | | | |fs vs H]; subst. repeat match goal with H : Forall2 _ (_ :: _) _ |- _ => inversion H as [|? [? ?] ? ? (? & ?)]; clear H; subst end.
  match goal with H : Forall2 _ [] _ |- _ => inversion H; clear H; subst end. cbn [fst snd] in *. subst.
  unfold part in D, C. repeat match goal with H : context [beqb ?a ?b] |- _ => let q := eval vm_compute in (beqb a b) in change (beqb a b) with q in H; cbn [find fst snd] in H end.
  cbn [find fst snd beqb] in D, C. vm_compute in D, C.
  repeat match goal with H : fits TString ?g |- _ => inversion H; clear H; subst end.
  cbn in D, C. injection Z as Z. cbn [overlay] in *. cbn in *.
  repeat match goal with H : ?s = [] -> False |- _ => destruct s; [contradiction H; reflexivity|clear H] end. cbn. congruence.
Qed.

(** Texts that are not UTF-8 are changed: a byte that is no character becomes U+FFFD. *)
Definition named (n : bytes) : gval := GStruct (set_field (match empty_catalog with GStruct vs => vs | _ => [] end) (B"CatalogName") (GString n)).
Theorem C109_not_utf8 : fits catalog_shape (named [ascii_of_nat 233]) /\
  read_catalog (encode_value (named [ascii_of_nat 233])) empty_catalog = Ok (named (map ascii_of_nat [239; 191; 189])).
Proof. split; [vm_compute; repeat constructor|vm_compute; reflexivity]. Qed.
(** In general: every byte at which no character begins becomes U+FFFD, so that what is read is always UTF-8, and it
    is what was written only if that was UTF-8. *)
Theorem C109_mended : forall n, exists n', read_catalog (encode_value (named n)) empty_catalog = Ok (named n') /\ mended n n' /\ utf8 n' /\ (n' = n <-> utf8 n).
Proof.
  intros n. enough (X : exists n', read_catalog (encode_value (named n)) empty_catalog = Ok (named n') /\ mended n n').
  { destruct X as (n' & R & M). exists n'. pose proof (mended_utf8 _ _ M) as U. split; [exact R|]. split; [exact M|]. split; [exact U|]. split; [intros <-; exact U|].
    intros V. clear U. assert (C : Ok (named n') = Ok (named n)).
    { rewrite <- R. apply C109; [vm_compute; repeat constructor|]. assert (E0 : utf8 []) by (exists []; split; [constructor|reflexivity]). vm_compute. repeat first [exact V | exact E0 | constructor]. }
    vm_compute in C. congruence. }
  destruct n as [|a n]; [exists []; split; [vm_compute; reflexivity|constructor]|].
  destruct (object_any (B"CatalogName") (a :: n) [LF] (List.length (encode_value (named (a :: n))) - 2)) as (s' & T & M); [apply utf8_ascii_only; reflexivity|].
  assert (E : encode_value (named (a :: n)) = B"{" ++ new_line 1 ++ quote_text (B"CatalogName") ++ B": " ++ quote_text (a :: n) ++ LF :: B"}" ++ [LF]).
  { unfold encode_value. change (tree (named (a :: n))) with (TObject [(B"CatalogName", TText (a :: n))]). cbn [print map join fst snd]. rewrite <- !app_assoc. reflexivity. }
  exists s'. split; [|exact M]. unfold read_catalog, decode_into.
  assert (L : S (List.length (encode_value (named (a :: n)))) = S (S (S (List.length (encode_value (named (a :: n))) - 2)))).
  { enough (2 <= List.length (encode_value (named (a :: n))))%nat by lia. rewrite E. cbn [app List.length B]. rewrite app_length. cbn. lia. }
  rewrite L, E at 1. rewrite <- E. rewrite E at 2. rewrite T. reflexivity.
Qed.

(** A catalog with texts of all kinds. *)
Definition filled (t : shape) (l : list (bytes * gval)) : gval :=
  GStruct (fold_left (fun vs p => set_field vs (fst p) (snd p)) l (match zero t with GStruct vs => vs | _ => [] end)).
Definition odd_text : bytes := flat_map char_bytes [233; 8232; 128512; 34; 60; 92; 10; 1; 127]%N.
Definition column_of (t n : bytes) (l : list (bytes * gval)) : gval := filled column_shape ([(B"TableName", GString t); (B"ColumnName", GString n)] ++ l).
Definition actor : gval := filled table_shape [(B"TableName", GString (B"actor")); (B"Comment", GString (B"the actors"));
  (B"Columns", GList [column_of (B"actor") (B"actor_id") [(B"ColumnType", GString (B"INT")); (B"IsPrimaryKey", GBool true)];
                      column_of (B"actor") (B"last_name") [(B"ColumnType", GString (B"TEXT")); (B"ColumnDefault", GString odd_text)]]);
  (B"Triggers", GList [filled trigger_shape [(B"TriggerName", GString (B"trg")); (B"Attrs", GMap [(B"actionTiming", B"BEFORE"); (B"eventManipulation", B"UPDATE")])]])].
Definition catalog_of (s : bytes) (ts : list gval) : gval := filled catalog_shape [(B"Dialect", GString (B"postgres")); (B"VersionNums", GList [GInt 14; GInt 0]);
  (B"Extensions", GList [GString (B"pgcrypto"); GString []]); (B"Schemas", GList [filled schema_shape [(B"SchemaName", GString s); (B"Tables", GList ts)]])].
Ltac texts := repeat (first [apply utf8_ascii_only; vm_compute; reflexivity
  | match goal with |- utf8 odd_text => exists [233; 8232; 128512; 34; 60; 92; 10; 1; 127]%N; split; [repeat constructor; unfold scalar; lia|reflexivity] end
  | match goal with |- texts_utf8 (catalog_of _ _) => unfold catalog_of | |- texts_utf8 actor => unfold actor | |- texts_utf8 (column_of _ _ _) => unfold column_of end
  | match goal with |- texts_utf8 (filled _ _) => unfold filled; cbn -[odd_text actor column_of filled] end
  | constructor]).
Lemma first_fits : fits catalog_shape (catalog_of (B"public") [actor]). Proof. apply fitsb_fits. vm_compute. reflexivity. Qed.
Example C109_case : fits catalog_shape (catalog_of (B"public") [actor]) /\ texts_utf8 (catalog_of (B"public") [actor]) /\
  contains (encode_value (catalog_of (B"public") [actor])) (B"\n") = true.
Proof. split; [apply first_fits|]. split; [texts|vm_compute; reflexivity]. Qed.

(** ** C110 *)
(** The files [a] and [b], one after the other. *)
Definition two_files (T : tools gval) (a b : bytes) (v w : gval) : Prop :=
  t_json T = read_catalog /\ open_ T (a ++ B".json") = File_ (encode_value v) /\ open_ T (b ++ B".json") = File_ (encode_value w).
Definition C110_full : Prop := forall T history a b v w cat, two_files T a b v w ->
  fits catalog_shape v -> texts_utf8 v -> fits catalog_shape w -> texts_utf8 w ->
  write_catalogs T history [a ++ B".json"; b ++ B".json"] empty_catalog = Ok cat ->
  forall s t, has_table v s t \/ has_table w s t -> has_table cat s t.
Lemma two_files_read : forall T history a b v w, two_files T a b v w -> fits catalog_shape v -> texts_utf8 v -> fits catalog_shape w -> texts_utf8 w ->
  write_catalogs T history [a ++ B".json"; b ++ B".json"] empty_catalog = Ok (overlay v w).
Proof.
  intros T history a b v w (J & A & Bf) F U F' U'. cbn [write_catalogs]. unfold write_catalog. rewrite !has_suffix_app. unfold with_content.
  rewrite A, Bf, J, C109 by assumption. cbn [bindr]. unfold read_catalog. rewrite decode_encode; [reflexivity|apply catalog_good|assumption..].
Qed.
(** The catalog after two files is the overlay of the second over the first. *)
Theorem C110_overlay : forall T history a b v w, two_files T a b v w -> fits catalog_shape v -> texts_utf8 v -> fits catalog_shape w -> texts_utf8 w ->
  write_catalogs T history [a ++ B".json"; b ++ B".json"] empty_catalog = Ok (overlay v w).
Proof. exact two_files_read. Qed.
Definition film : gval := filled table_shape [(B"TableName", GString (B"film"));
  (B"Columns", GList [column_of (B"film") (B"title") [(B"ColumnType", GString (B"TEXT"))]])].
(** The table film of the second file has the comment, the primary key and the trigger of the table actor of the first. *)
Definition mixed : gval := filled table_shape [(B"TableName", GString (B"film")); (B"Comment", GString (B"the actors"));
  (B"Columns", GList [column_of (B"film") (B"title") [(B"ColumnType", GString (B"TEXT")); (B"IsPrimaryKey", GBool true)]]);
  (B"Triggers", GList [filled trigger_shape [(B"TriggerName", GString (B"trg")); (B"Attrs", GMap [(B"actionTiming", B"BEFORE"); (B"eventManipulation", B"UPDATE")])]])].
Definition both_files : tools gval := Tools gval
  (fun n => if beqb n (B"a.json") then File_ (encode_value (catalog_of (B"public") [actor])) else if beqb n (B"b.json") then File_ (encode_value (catalog_of (B"public") [film])) else NoFile)
  (fun _ => Missing) read_catalog (fun _ _ => Err) (fun _ _ _ _ => Err) (fun _ => None) (fun _ => None).
Lemma both_given : two_files both_files (B"a") (B"b") (catalog_of (B"public") [actor]) (catalog_of (B"public") [film]).
Proof. split; [reflexivity|]. split; reflexivity. Qed.
Lemma second_fits : fits catalog_shape (catalog_of (B"public") [film]). Proof. apply fitsb_fits. vm_compute. reflexivity. Qed.
Lemma first_texts : texts_utf8 (catalog_of (B"public") [actor]). Proof. texts. Qed.
Lemma second_texts : texts_utf8 (catalog_of (B"public") [film]). Proof. unfold film. texts. Qed.
Theorem C110_mixed : write_catalogs both_files [] [B"a.json"; B"b.json"] empty_catalog = Ok (catalog_of (B"public") [mixed]).
Proof.
  change (B"a.json") with (B"a" ++ B".json"). change (B"b.json") with (B"b" ++ B".json").
  rewrite (two_files_read _ _ _ _ _ _ both_given first_fits first_texts second_fits second_texts). vm_compute. reflexivity.
Qed.
Theorem C110_refuted : ~ C110_full.
Proof.
  intro H. pose proof (H _ [] _ _ _ _ _ both_given first_fits first_texts second_fits second_texts C110_mixed (B"public") actor) as (sch & I & _ & J).
  { left. exists (filled schema_shape [(B"SchemaName", GString (B"public")); (B"Tables", GList [actor])]). repeat split; vm_compute; tauto. }
  vm_compute in I. destruct I as [<-|[]]. vm_compute in J. destruct J as [E|[]]. discriminate E.
Qed.
(** As many schemas as in the second file, if it has any: those of the first are lost. *)
Lemma part_overlay : forall k os ns, Forall2 (fun o n : bytes * gval => fst o = fst n) os ns -> In k (map fst ns) ->
  part k (GStruct (both_fields os ns)) = if left_out (part k (GStruct ns)) then part k (GStruct os) else overlay (part k (GStruct os)) (part k (GStruct ns)).
Proof.
  intros k os ns H I. unfold part. induction H as [|[k' o] [k'' n] os ns E H IH]; [destruct I|]. cbn [fst snd] in *. subst k''. cbn [both_fields find fst snd].
  destruct (beqb k' k) eqn:E; [reflexivity|]. apply IH. destruct I as [<-|I]; [rewrite beqb_refl in E; discriminate E|exact I].
Qed.
Lemma same_names : forall fs (os ns : list (bytes * gval)), Forall2 (fun f v => fst f = fst v /\ fits (snd f) (snd v)) fs os -> Forall2 (fun f v => fst f = fst v /\ fits (snd f) (snd v)) fs ns ->
  Forall2 (fun o n : bytes * gval => fst o = fst n) os ns /\ map fst ns = map fst fs.
Proof.
  intros fs os ns H. revert ns. induction H as [|f o fs os (E & _) H IH]; intros ns H'; inversion H' as [|? n ? ns' (E' & _) H'']; subst; [split; [constructor|reflexivity]|].
  destruct (IH _ H'') as (I1 & I2). split; [constructor; [congruence|exact I1]|cbn [map]; congruence].
Qed.
Lemma part_of_both : forall fs k v w, fits (TStruct fs) v -> fits (TStruct fs) w -> In k (map fst fs) ->
  part k (overlay v w) = if left_out (part k w) then part k v else overlay (part k v) (part k w).
Proof.
  intros fs k v w F F' I. inversion F as [| | | | |? os Fo]; subst. inversion F' as [| | | | |? ns Fn]; subst. destruct (same_names _ _ _ Fo Fn) as (E & E').
  change (overlay (GStruct os) (GStruct ns)) with (GStruct (both_fields os ns)). apply part_overlay; [exact E|rewrite E'; exact I].
Qed.
Lemma both_length : forall ns os, List.length (both_lists os ns) = List.length ns.
Proof. induction ns as [|n ns IH]; intros os; [destruct os; reflexivity|]. destruct os; cbn [both_lists List.length]; rewrite IH; reflexivity. Qed.
Lemma schemas_are : forall v, fits catalog_shape v -> exists l, part (B"Schemas") v = GList l.
Proof.
  intros v F. inversion F as [| | | | |fs vs H]; subst. repeat match goal with H : Forall2 _ (_ :: _) _ |- _ => inversion H as [|? [? ?] ? ? (? & ?)]; clear H; subst end.
  match goal with H : Forall2 _ [] _ |- _ => inversion H; clear H; subst end. cbn [fst snd] in *. subst.
  match goal with H : fits (TList schema_shape) ?g |- _ => inversion H; subst end. eexists. reflexivity.
Qed.
Theorem C110_count : forall T history a b v w cat, two_files T a b v w -> fits catalog_shape v -> texts_utf8 v -> fits catalog_shape w -> texts_utf8 w ->
  elements (part (B"Schemas") w) <> [] -> write_catalogs T history [a ++ B".json"; b ++ B".json"] empty_catalog = Ok cat ->
  List.length (elements (part (B"Schemas") cat)) = List.length (elements (part (B"Schemas") w)).
Proof.
  intros T history a b v w cat R F U F' U' N E. rewrite (two_files_read _ _ _ _ _ _ R F U F' U') in E. injection E as <-.
  rewrite (part_of_both _ _ _ _ F F') by (vm_compute; tauto). destruct (schemas_are w F') as (l & Ew). destruct (schemas_are v F) as (l' & Ev). rewrite Ew, Ev in *. cbn [elements left_out] in *.
  destruct l as [|x l]; [contradiction N; reflexivity|]. change (overlay (GList l') (GList (x :: l))) with (GList (both_lists l' (x :: l))). cbn [elements]. apply both_length.
Qed.
(** Missing: files that both have schemas. *)
Theorem C110_partial : forall T history a b v w cat, two_files T a b v w ->
  fits catalog_shape v -> texts_utf8 v -> fits catalog_shape w -> texts_utf8 w ->
  elements (part (B"Schemas") v) = [] \/ elements (part (B"Schemas") w) = [] ->
  write_catalogs T history [a ++ B".json"; b ++ B".json"] empty_catalog = Ok cat ->
  forall s t, has_table cat s t <-> has_table v s t \/ has_table w s t.
Proof.
  intros T history a b v w cat R F U F' U' N E s t. rewrite (two_files_read _ _ _ _ _ _ R F U F' U') in E. injection E as <-.
  unfold has_table. rewrite (part_of_both _ _ _ _ F F') by (vm_compute; tauto). destruct (schemas_are w F') as (l & Ew). destruct (schemas_are v F) as (l' & Ev). rewrite Ew, Ev in *.
  cbn [elements] in *. destruct l as [|x l]; cbn [left_out].
  - split; [intros X; left; exact X|intros [X|(sch & [] & _)]; exact X].
  - destruct N as [->|N]; [|discriminate N]. change (overlay (GList []) (GList (x :: l))) with (GList (both_lists [] (x :: l))).
    assert (Q : forall l, both_lists [] l = l) by (clear; induction l as [|y l IH]; [reflexivity|]; cbn [both_lists]; rewrite IH; reflexivity). rewrite Q.
    split; [intros X; right; exact X|intros [(sch & [] & _)|X]; exact X].
Qed.
Example C110_case : two_files both_files (B"a") (B"b") (catalog_of (B"public") [actor]) (catalog_of (B"public") [film]) /\
  has_table (catalog_of (B"public") [actor]) (B"public") actor /\ has_table (catalog_of (B"public") [film]) (B"public") film.
Proof.
  split; [apply both_given|]. split; [exists (filled schema_shape [(B"SchemaName", GString (B"public")); (B"Tables", GList [actor])])|exists (filled schema_shape [(B"SchemaName", GString (B"public")); (B"Tables", GList [film])])];
    repeat split; vm_compute; tauto.
Qed.
Example C110_partial_case : fits catalog_shape (catalog_of (B"public") [actor]) /\ fits catalog_shape (named (B"app")) /\ texts_utf8 (named (B"app")) /\
  elements (part (B"Schemas") (named (B"app"))) = [] /\ part (B"CatalogName") (overlay (catalog_of (B"public") [actor]) (named (B"app"))) = GString (B"app").
Proof. split; [apply first_fits|]. split; [apply fitsb_fits; vm_compute; reflexivity|]. split; [vm_compute; texts|]. split; vm_compute; reflexivity. Qed.
Print Assumptions C109.
Print Assumptions C109_sources.
Print Assumptions C109_destination.
Print Assumptions C109_not_utf8.
Print Assumptions C109_mended.
Print Assumptions C110_overlay.
Print Assumptions C110_mixed.
Print Assumptions C110_refuted.
Print Assumptions C110_count.
Print Assumptions C110_partial.
