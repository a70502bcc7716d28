(** C114: a schema.json that says the same in another layout is read as the same catalog.
    For C109: what strings are in such files. *)
From Coq Require Import Lia.
From Verif Require Import GoStr GoStrFacts ModelCatalog ModelDiff ModelDsn ModelTables TablesFacts ModelSources ModelJson SpecJson JsonFacts JsonStore JsonMended PropJson SpecJsonText JsonTextFacts JsonDescribed.

(** Strings are read as the characters they stand for, whichever way those are written. *)
Theorem C109_texts : forall s l r, json_text s l -> read_text (s ++ dquote :: r) = Some (flat_map char_bytes l, r).
Proof. intros s l r H. apply read_text_json, H. Qed.

(** ** C114 *)
Theorem C114 : forall s j v, document s j -> describes catalog_shape v j -> fits catalog_shape v -> read_catalog s empty_catalog = Ok v.
Proof.
  intros s j v D H F. destruct (document_read s j D) as (r & E). unfold read_catalog, decode_into. rewrite E. apply assign_described; [apply catalog_good|vm_compute; reflexivity|exact F|exact H].
Qed.
(** As a source: two files that say the same are the same. *)
Theorem C114_sources : forall (T : tools gval) history v, t_json T = read_catalog -> fits catalog_shape v ->
  (forall a s j, open_ T (a ++ B".json") = File_ s -> document s j -> describes catalog_shape v j -> write_catalog T history (a ++ B".json") empty_catalog = Ok v) /\
  (forall dir s j, is_dir T dir = true -> (forall e, In e [B".json"; B".go"; B".go.txt"; B".zip"; B".tgz"; B".tar.gz"] -> has_suffix dir e = false) ->
     open_ T (dir ++ B"/schema.json") = File_ s -> document s j -> describes catalog_shape v j -> write_catalog T history dir empty_catalog = Ok v).
Proof.
  intros T history v J F. split.
  - intros a s j O D H. unfold write_catalog. rewrite has_suffix_app. unfold with_content. rewrite O, J. apply (C114 s j v); assumption.
  - intros dir s j D S O Ds H. unfold write_catalog. rewrite !S by (cbn; tauto). cbn [orb]. rewrite D. unfold with_content. rewrite O, J. apply (C114 s j v); assumption.
Qed.
(** What dump writes is one such description: the fields it leaves out are the empty ones. *)
Lemma empty_zero t v : fits t v -> empty_value v = true -> v = zero t.
Proof. intros F E. destruct F as [s|b|z|t l|m|fs vs]; try discriminate E; [destruct s|destruct b|destruct z|destruct l|destruct m]; try discriminate E; reflexivity. Qed.
Lemma in_written k j vs : In (k, j) (flat_map (fun f : bytes * gval => if empty_value (snd f) then [] else [(fst f, tree (snd f))]) vs) <-> exists v, In (k, v) vs /\ empty_value v = false /\ j = tree v.
Proof.
  rewrite in_flat_map. split.
  - intros ([k' v] & I & J). cbn [fst snd] in J. destruct (empty_value v) eqn:E; [destruct J|]. destruct J as [J|[]]. injection J as -> <-. eauto.
  - intros (v & I & E & ->). exists (k, v). split; [exact I|]. cbn [fst snd]. rewrite E. left. reflexivity.
Qed.
Lemma one_value : forall (vs : list (bytes * gval)) k v w, NoDup (map fst vs) -> In (k, v) vs -> In (k, w) vs -> v = w.
Proof.
  induction vs as [|[k' x] vs IH]; intros k v w N I J; [destruct I|]. cbn [map fst] in N. inversion N as [|? ? N1 N2]; subst.
  destruct I as [I|I], J as [J|J].
  - congruence.
  - injection I as -> ->. exfalso. apply N1, in_map_iff. exists (k, w). auto.
  - injection J as -> ->. exfalso. apply N1, in_map_iff. exists (k, v). auto.
  - apply (IH k v w N2 I J).
Qed.
(** No two fields have names that differ only in case. *)
Fixpoint apart (t : shape) : bool :=
  match t with
  | TList t => apart t
  | TStruct fs => forallb (fun f => forallb (fun g => beqb (fst f) (fst g) || negb (beqb (map to_lower_c (fst f)) (map to_lower_c (fst g)))) fs && ascii_name (fst f) && apart (snd f)) fs
  | _ => true
  end.
Lemma lower_case : forall c c', case_of c = case_of c' -> to_lower_c c = to_lower_c c'.
Proof.
  enough (forallb (fun n => let c := ascii_of_nat n in (case_of c =? N_of_ascii (to_lower_c c))%N) (seq 0 256) = true) as H.
  { assert (C : forall c, case_of c = N_of_ascii (to_lower_c c)).
    { intros c. rewrite forallb_forall in H. specialize (H (nat_of_ascii c)). cbv zeta in H. rewrite ascii_nat_embedding in H. apply N.eqb_eq, H. apply in_seq. pose proof (nat_ascii_bounded c). lia. }
    intros c c' E. rewrite !C in E. rewrite <- (ascii_N_embedding (to_lower_c c)), E. apply ascii_N_embedding. }
  vm_compute. reflexivity.
Qed.
Lemma same_ascii f k : ascii_name k = true -> same_letters f k -> map to_lower_c f = map to_lower_c k.
Proof.
  intros A S. induction S as [|c c' f k E S IH|c f k E S IH|c f k E S IH].
  - reflexivity.
  - apply andb_true_iff in A. cbn [map]. rewrite (lower_case _ _ E), IH by apply A. reflexivity.
  - vm_compute in A. discriminate A.
  - vm_compute in A. discriminate A.
Qed.
Lemma tree_describes : forall v t, good t -> apart t = true -> fits t v -> describes t v (tree v).
Proof.
  intros v. induction v as [s|b|z|l IH|m|vs IH] using gval_ind'; intros t G A F; inversion F as [| | |t' l' Fl|m' O|fs vs' Fs]; subst.
  - constructor.
  - constructor.
  - constructor.
  - cbn [tree]. inversion G; subst. apply ds_list. cbn [apart] in A. induction l as [|x l IHl]; [constructor|]. inversion IH; subst. inversion Fl; subst. cbn [map]. constructor; [auto|]. apply IHl; [assumption|constructor; assumption|assumption].
  - cbn [tree]. apply ds_map.
    + rewrite map_map. cbn [fst]. apply ordered_keys, O.
    + intros k s. rewrite !in_map_iff. split.
      * intros I. left. exists (k, s). auto.
      * intros [([k' s'] & E & I)|(_ & ([k' s'] & E & I))]; [injection E as -> ->; exact I|discriminate E].
    + intros k j I. apply in_map_iff in I. destruct I as ([k' s] & E & I). injection E as _ <-. right. exists s. reflexivity.
  - cbn [tree]. inversion G as [| | | | |? Nf Gf]; subst. cbn [apart] in A. rewrite forallb_forall in A. rewrite Forall_forall in IH, Gf.
    assert (E : map fst vs = map fst fs) by (clear - Fs; induction Fs as [|? ? ? ? (? & _) ? IHl]; [reflexivity|cbn [map]; congruence]).
    assert (Nv : NoDup (map fst vs)) by (rewrite E; exact Nf).
    assert (Fk : forall k t v, In (k, t) fs -> In (k, v) vs -> fits t v).
    { clear - Fs Nf. intros k t v It Iv. induction Fs as [|[k1 t1] [k2 v2] fs vs (E1 & F1) Fs IHf]; [destruct It|]. cbn [fst snd] in *. subst k2. inversion Nf as [|? ? N1 N2]; subst.
      assert (K : map fst vs = map fst fs) by (clear - Fs; induction Fs as [|? ? ? ? (? & _) ? IHl]; [reflexivity|cbn [map]; congruence]).
      destruct It as [It|It], Iv as [Iv|Iv].
      -- injection It as -> ->. injection Iv as ->. exact F1.
      -- injection It as -> ->. exfalso. apply N1. rewrite <- K. apply in_map_iff. exists (k, v). auto.
      -- injection Iv as -> ->. exfalso. apply N1. apply in_map_iff. exists (k, t). auto.
      -- apply IHf; assumption. }
    apply ds_struct.
    + clear - Nv. induction vs as [|[k v] vs IHv]; [constructor|]. cbn [map fst] in Nv. inversion Nv as [|? ? N1 N2]; subst. cbn [flat_map fst snd]. destruct (empty_value v); [apply IHv, N2|]. cbn [app map fst]. constructor; [|apply IHv, N2].
      intros I. apply N1. apply in_map_iff in I. destruct I as ([k' j] & K & I). cbn in K. subst k'. apply in_written in I. destruct I as (w & I & _). apply in_map_iff. exists (k, w). auto.
    + exact E.
    + intros k t v j It Iv Ij. apply in_written in Ij. destruct Ij as (w & Iw & _ & ->). rewrite (one_value vs k w v Nv Iw Iv). specialize (A (k, t) It). apply andb_true_iff in A. cbn [snd] in A.
      apply (IH (k, v) Iv t); [apply (Gf (k, t) It)|apply A|apply (Fk k); assumption].
    + intros k t v It Iv N. apply empty_zero; [apply (Fk k); assumption|]. destruct (empty_value v) eqn:Ev; [reflexivity|]. exfalso. apply N, in_map_iff. exists (k, tree v). split; [reflexivity|]. apply in_written. eauto.
    + intros k j f Ij If Nf' S. apply in_written in Ij. destruct Ij as (w & Iw & _ & _). assert (exists t, In (k, t) fs) as (t & It). { assert (I : In k (map fst fs)) by (rewrite <- E; apply in_map_iff; exists (k, w); auto). apply in_map_iff in I. destruct I as ([k' t] & K & I). cbn in K. subst k'. eauto. }
      pose proof (A f If) as Af. apply andb_true_iff in Af. destruct Af as (Af & _). apply andb_true_iff in Af. destruct Af as (Af & _). rewrite forallb_forall in Af. specialize (Af (k, t) It). cbn [fst] in Af.
      rewrite (proj2 (beqb_neq _ _) Nf') in Af. cbn [orb] in Af. specialize (A (k, t) It). apply andb_true_iff in A. destruct A as (A & _). apply andb_true_iff in A. destruct A as (_ & A). cbn [fst] in A.
      rewrite (same_ascii _ _ A S), beqb_refl in Af. discriminate Af.
Qed.
Theorem C114_dumped : forall v, fits catalog_shape v -> describes catalog_shape v (tree v).
Proof. intros v F. apply tree_describes; [apply catalog_good|vm_compute; reflexivity|exact F]. Qed.
(** Keys in other letters, also with a long s or a Kelvin sign, are taken for the field. *)
Lemma case_ascii c : (bv c <? 128)%N = (case_of c <? 128)%N.
Proof.
  unfold case_of, bv. cbv zeta. generalize (N_of_ascii c). intros n. destruct (65 <=? n)%N eqn:L, (n <=? 90)%N eqn:R; cbn [andb]; try reflexivity.
  apply N.leb_le in L, R. transitivity true; [apply N.ltb_lt; lia|symmetry; apply N.ltb_lt; lia].
Qed.
Lemma fold_step a k : (bv a <? 128)%N = true -> fold_name (a :: k) = to_lower_c a :: fold_name k.
Proof.
  intros Ha. cbn [fold_name]. destruct k as [|b [|c r]]; [reflexivity| |]; rewrite (within_ascii 197 a) by (exact Ha || lia); [reflexivity|]. rewrite (within_ascii 226 a) by (exact Ha || lia). reflexivity.
Qed.
Lemma lower_to c n : (n < 256)%N -> case_of c = n -> case_of (ascii_of_N n) = n -> to_lower_c c = to_lower_c (ascii_of_N n).
Proof. intros L E E'. apply lower_case. congruence. Qed.
Lemma same_fold f k : ascii_name f = true -> same_letters f k -> fold_name k = map to_lower_c f.
Proof.
  intros A S. induction S as [|c c' f k E S IH|c f k E S IH|c f k E S IH]; [reflexivity| | |]; apply andb_true_iff in A; destruct A as (Ac & A).
  - rewrite fold_step by (rewrite case_ascii, <- E, <- case_ascii; exact Ac). cbn [map]. rewrite (lower_case _ _ E), IH by exact A. reflexivity.
  - change (fold_name (char_bytes 383 ++ k)) with ("s"%char :: fold_name k). cbn [map]. rewrite IH by exact A. rewrite (lower_to c 115) by (reflexivity || exact E). reflexivity.
  - change (fold_name (char_bytes 8490 ++ k)) with ("k"%char :: fold_name k). cbn [map]. rewrite IH by exact A. rewrite (lower_to c 107) by (reflexivity || exact E). reflexivity.
Qed.
Lemma field_letters fs f t k : apart (TStruct fs) = true -> NoDup (map fst fs) -> In (f, t) fs -> same_letters f k -> field_for fs k = Some (f, t).
Proof.
  intros A N I S. cbn [apart] in A. rewrite forallb_forall in A. assert (Af := A _ I). cbn [fst snd] in Af. apply andb_true_iff in Af. destruct Af as (Af & _). apply andb_true_iff in Af. destruct Af as (Af & An).
  assert (K := same_fold f k An S). rewrite forallb_forall in Af.
  assert (W : forall g, In g fs -> ascii_name (fst g) = true /\ (map to_lower_c (fst g) = map to_lower_c f -> g = (f, t))).
  { intros g Ig. pose proof (A g Ig) as Ag. apply andb_true_iff in Ag. destruct Ag as (Ag & _). apply andb_true_iff in Ag. destruct Ag as (_ & Ag). split; [exact Ag|]. intros E. specialize (Af g Ig). rewrite E, beqb_refl in Af. cbn [negb] in Af. rewrite orb_false_r in Af. apply beqb_eq in Af.
    destruct g as [g u]. cbn [fst] in Af. subst g. f_equal. clear - N I Ig. induction fs as [|[a b] fs IH]; [destruct I|]. cbn [map fst] in N. inversion N as [|? ? N1 N2]; subst. destruct I as [I|I], Ig as [J|J]; [congruence| | |apply IH; assumption].
    - injection I as -> ->. exfalso. apply N1, in_map_iff. exists (f, u). auto.
    - injection J as -> ->. exfalso. apply N1, in_map_iff. exists (f, t). auto. }
  unfold field_for. destruct (find (fun g => beqb (fst g) k) fs) as [g|] eqn:F.
  - apply find_some in F. destruct F as (Ig & E). apply beqb_eq in E. destruct (W g Ig) as (Ag & Wg). rewrite Wg; [reflexivity|]. rewrite <- K, <- E. symmetry. apply fold_ascii, Ag.
  - destruct (find (fun g => beqb (fold_name (fst g)) (fold_name k)) fs) as [g|] eqn:F2.
    + apply find_some in F2. destruct F2 as (Ig & E). apply beqb_eq in E. destruct (W g Ig) as (Ag & Wg). rewrite Wg; [reflexivity|]. rewrite <- K, <- E. symmetry. apply fold_ascii, Ag.
    + pose proof (find_none _ _ F2 _ I) as X. cbn [fst] in X. rewrite (fold_ascii f An), K, beqb_refl in X. discriminate X.
Qed.
Definition catalog_fields : list (bytes * shape) := match catalog_shape with TStruct fs => fs | _ => [] end.
Theorem C114_letters : forall f kt kn st sn, In (f, TString) catalog_fields -> json_text kt kn -> same_letters f (flat_map char_bytes kn) -> json_text st sn ->
  read_catalog (B"{" ++ dquote :: kt ++ dquote :: B":" ++ dquote :: st ++ dquote :: B"}") empty_catalog = Ok (filled catalog_shape [(f, GString (flat_map char_bytes sn))]).
Proof.
  intros f kt kn st sn I K S T. assert (Bn : blank []) by (intros c []).
  assert (D : document (B"{" ++ dquote :: kt ++ dquote :: B":" ++ dquote :: st ++ dquote :: B"}") (TObject [(flat_map char_bytes kn, TText (flat_map char_bytes sn))])).
  { pose proof (document_of [] _ _ [] Bn (vt_members _ _ (mt_last [] kt kn [] [] _ [] _ Bn K Bn Bn (vt_text st sn T) Bn)) Bn) as D. cbn [app] in D. rewrite !app_nil_r in D.
    match goal with D : document ?a _ |- document ?b _ => replace b with a; [exact D|] end. cbn [app B]. repeat (rewrite <- app_assoc; cbn [app]). reflexivity. }
  destruct (document_read _ _ D) as (r & E). unfold read_catalog, decode_into. rewrite E.
  change (assign catalog_shape empty_catalog (TObject [(flat_map char_bytes kn, TText (flat_map char_bytes sn))])) with
    (bindr (store_fields catalog_fields [(flat_map char_bytes kn, TText (flat_map char_bytes sn))] (map (fun f => (fst f, zero (snd f))) catalog_fields)) (fun m => Ok (GStruct m))).
  assert (Gf := catalog_good). inversion Gf as [| | | | |? Nf _]. change (store_fields catalog_fields [(?k, ?j)] ?w) with (match field_for catalog_fields k with Some f => bindr (assign (snd f) (field_value w (fst f)) j) (fun v => Ok (set_field w (fst f) v)) | None => Ok w end).
  rewrite (field_letters catalog_fields f TString); [reflexivity|vm_compute; reflexivity|exact Nf|exact I|exact S].
Qed.

(** null in a further file empties lists and leaves the other fields alone. *)
Theorem C114_null : forall f t kt kn vs, In (f, t) catalog_fields -> json_text kt kn -> flat_map char_bytes kn = f -> fits catalog_shape (GStruct vs) ->
  read_catalog (B"{" ++ dquote :: kt ++ dquote :: B":null}") (GStruct vs) = Ok (match t with TList _ => GStruct (set_field vs f (GList [])) | _ => GStruct vs end).
Proof.
  intros f t kt kn vs I K E F. assert (Bn : blank []) by (intros c []).
  assert (D : document (B"{" ++ dquote :: kt ++ dquote :: B":null}") (TObject [(f, TNull)])).
  { pose proof (document_of [] _ _ [] Bn (vt_members _ _ (mt_last [] kt kn [] [] _ [] _ Bn K Bn Bn vt_null Bn)) Bn) as D. cbn [app] in D. rewrite !app_nil_r, E in D.
    match goal with D : document ?a _ |- document ?b _ => replace b with a; [exact D|] end. cbn [app B]. repeat (rewrite <- app_assoc; cbn [app]). reflexivity. }
  destruct (document_read _ _ D) as (r & Er). unfold read_catalog, decode_into. rewrite Er.
  change (assign catalog_shape (GStruct vs) (TObject [(f, TNull)])) with (bindr (store_fields catalog_fields [(f, TNull)] vs) (fun m => Ok (GStruct m))).
  assert (Gf := catalog_good). inversion Gf as [| | | | |? Nf _]. change (store_fields catalog_fields [(?k, ?j)] ?w) with (match field_for catalog_fields k with Some f => bindr (assign (snd f) (field_value w (fst f)) j) (fun v => Ok (set_field w (fst f) v)) | None => Ok w end).
  rewrite (field_found catalog_fields f t Nf I). cbn [fst snd].
  assert (Nt : t <> TMap) by (revert I; clear; vm_compute; intuition congruence).
  assert (Ns : forall fs, t <> TStruct fs) by (revert I; clear; vm_compute; intuition congruence).
  assert (Same : set_field vs f (field_value vs f) = vs).
  { clear. induction vs as [|[k v] vs IH]; [reflexivity|]. cbn [set_field field_value fst snd]. destruct (beqb k f) eqn:E; [reflexivity|]. rewrite IH. reflexivity. }
  destruct t; cbn [assign bindr]; rewrite ?Same; try reflexivity. destruct Nt. reflexivity.
Qed.

(** A file in another layout: members in another order, blanks, escapes, null, an unknown key. *)
Definition accented : gval := filled catalog_shape [(B"Dialect", GString (B"sqlite")); (B"VersionNums", GList [GInt 3; GInt (-1)]);
  (B"Schemas", GList [filled schema_shape [(B"Tables", GList [filled table_shape [(B"TableName", GString (flat_map char_bytes [102; 239; 108; 128512; 47]%N))]])]])].
Definition other_layout : bytes := B" { ""$note"" : [ null , 1 ],
""VersionNums"":[3,-1],""Schemas"" :[ {""Tables"":[{""TableName"":""f\u00EFl\uD83d\uDE00\/"",""SQL"":null}],""SchemaName"":""""} ], ""Dialect"":""\u0073qlite""} ".
Definition other_tree : jtree := TObject [(B"$note", TItems [TNull; TNumber (B"1")]); (B"VersionNums", TItems [TNumber (B"3"); TNumber (B"-1")]);
  (B"Schemas", TItems [TObject [(B"Tables", TItems [TObject [(B"TableName", TText (flat_map char_bytes [102; 239; 108; 128512; 47]%N)); (B"SQL", TNull)]]); (B"SchemaName", TText [])]]);
  (B"Dialect", TText (B"sqlite"))].
Lemma blank_of w : forallb (fun c => existsb (N.eqb (N_of_ascii c)) [32; 9; 10; 13]%N) w = true -> blank w.
Proof. intros H c I. rewrite forallb_forall in H. specialize (H c I). apply existsb_exists in H. destruct H as (x & J & E). apply N.eqb_eq in E. rewrite E. exact J. Qed.
Definition plain_char (c : ascii) : bool := let n := N_of_ascii c in (32 <=? n)%N && (n <? 127)%N && negb (n =? 34)%N && negb (n =? 92)%N.
Lemma plain_text s : forallb plain_char s = true -> json_text s (map N_of_ascii s).
Proof.
  induction s as [|c s IH]; [constructor|]. cbn [forallb map]. intros H. apply andb_true_iff in H. destruct H as (H & Hs). unfold plain_char in H. cbv zeta in H. repeat (apply andb_true_iff in H; destruct H as (H & ?)).
  apply N.leb_le in H. match goal with X : (_ <? 127)%N = true |- _ => apply N.ltb_lt in X end. repeat match goal with X : negb (_ =? _)%N = true |- _ => apply negb_true_iff, N.eqb_neq in X end.
  replace (c :: s) with (char_bytes (N_of_ascii c) ++ s). 2:{ unfold char_bytes. rewrite (proj2 (N.ltb_lt _ 128)) by lia. rewrite ascii_N_embedding. reflexivity. }
  constructor; [|apply IH, Hs]. constructor; [left; lia|assumption..].
Qed.
Lemma four_digits a b c d (ca cb cc cd : ascii) : (forall x y, In (x, y) [(a, ca); (b, cb); (c, cc); (d, cd)] -> nth_error lower_hex x = Some y \/ nth_error upper_hex x = Some y) ->
  hexes 4 (16 * (16 * (16 * (16 * 0 + N.of_nat a) + N.of_nat b) + N.of_nat c) + N.of_nat d) [ca; cb; cc; cd].
Proof.
  intros H. exact (hexes_digit _ _ _ d cd (hexes_digit _ _ _ c cc (hexes_digit _ _ _ b cb (hexes_digit _ _ _ a ca hexes_none (H a ca ltac:(cbn; tauto))) (H b cb ltac:(cbn; tauto))) (H c cc ltac:(cbn; tauto))) (H d cd ltac:(cbn; tauto))).
Qed.
Ltac four a b c d := apply (four_digits a b c d); intros x y I; cbn [In] in I; repeat (destruct I as [I|I]; [injection I as <- <-; first [left; reflexivity|right; reflexivity]|]); destruct I.
Ltac bl := apply blank_of; vm_compute; reflexivity.
Ltac pl := apply plain_text; vm_compute; reflexivity.
Lemma other_document : document other_layout other_tree.
Proof.
  assert (Note : value_text (B"[ null , 1 ]") (TItems [TNull; TNumber (B"1")])).
  { apply (vt_items (B" null , 1 ")). apply (it_more (B" ") (B"null") (B" ") TNull (B" 1 ")); [bl|constructor|bl|]. apply (it_last (B" ") (B"1") (B" ")); [bl|apply (vt_number 1)|bl]. }
  assert (Nums : value_text (B"[3,-1]") (TItems [TNumber (B"3"); TNumber (B"-1")])).
  { apply (vt_items (B"3,-1")). apply (it_more [] (B"3") [] (TNumber (B"3")) (B"-1")); [bl|apply (vt_number 3)|bl|]. apply (it_last [] (B"-1") []); [bl|apply (vt_number (-1))|bl]. }
  assert (Name : json_text (B"f\u00EFl\uD83d\uDE00\/") [102; 239; 108; 128512; 47]%N).
  { apply (jt_char (B"f") 102); [apply (jc_raw 102); [left; lia|lia..]|]. apply (jt_char (B"\u00EF") 239); [apply (jc_hex 239 (B"00EF")); [four 0 0 14 15|left; lia]|].
    apply (jt_char (B"l") 108); [apply (jc_raw 108); [left; lia|lia..]|]. apply (jt_char (B"\uD83d\uDE00") 128512); [apply (jc_pair 61 512 (B"D83d") (B"DE00")); [four 13 8 3 13|lia|four 13 14 0 0|lia]|].
    apply (jt_char (B"\/") 47 [] []); [|constructor]. apply (jc_short "/"%char 47). cbn. tauto. }
  assert (Dial : json_text (B"\u0073qlite") (115 :: map N_of_ascii (B"qlite"))%N).
  { apply (jt_char (B"\u0073") 115 (B"qlite")); [apply (jc_hex 115 (B"0073")); [four 0 0 7 3|left; lia]|pl]. }
  assert (Table : value_text (B"{""TableName"":""f\u00EFl\uD83d\uDE00\/"",""SQL"":null}") (TObject [(B"TableName", TText (flat_map char_bytes [102; 239; 108; 128512; 47]%N)); (B"SQL", TNull)])).
  { apply (vt_members (B"""TableName"":""f\u00EFl\uD83d\uDE00\/"",""SQL"":null")). apply (mt_more [] (B"TableName") (map N_of_ascii (B"TableName")) [] [] (B"""f\u00EFl\uD83d\uDE00\/""") [] _ (B"""SQL"":null") [(B"SQL", TNull)]); [bl|pl|bl|bl|apply (vt_text _ _ Name)|bl|].
    apply (mt_last [] (B"SQL") (map N_of_ascii (B"SQL")) [] [] (B"null") []); [bl|pl|bl|bl|constructor|bl]. }
  assert (Tables : value_text (B"[{""TableName"":""f\u00EFl\uD83d\uDE00\/"",""SQL"":null}]") (TItems [TObject [(B"TableName", TText (flat_map char_bytes [102; 239; 108; 128512; 47]%N)); (B"SQL", TNull)]])).
  { apply (vt_items (B"{""TableName"":""f\u00EFl\uD83d\uDE00\/"",""SQL"":null}")). apply (it_last [] _ [] _ ltac:(bl) Table ltac:(bl)). }
  assert (Schema : value_text (B"{""Tables"":[{""TableName"":""f\u00EFl\uD83d\uDE00\/"",""SQL"":null}],""SchemaName"":""""}")
    (TObject [(B"Tables", TItems [TObject [(B"TableName", TText (flat_map char_bytes [102; 239; 108; 128512; 47]%N)); (B"SQL", TNull)]]); (B"SchemaName", TText [])])).
  { apply (vt_members (B"""Tables"":[{""TableName"":""f\u00EFl\uD83d\uDE00\/"",""SQL"":null}],""SchemaName"":""""")).
    apply (mt_more [] (B"Tables") (map N_of_ascii (B"Tables")) [] [] _ [] _ (B"""SchemaName"":""""") [(B"SchemaName", TText [])] ltac:(bl) ltac:(pl) ltac:(bl) ltac:(bl) Tables ltac:(bl)).
    apply (mt_last [] (B"SchemaName") (map N_of_ascii (B"SchemaName")) [] [] (B"""""") []); [bl|pl|bl|bl|apply (vt_text [] []); constructor|bl]. }
  assert (Schemas : value_text (B"[ {""Tables"":[{""TableName"":""f\u00EFl\uD83d\uDE00\/"",""SQL"":null}],""SchemaName"":""""} ]")
    (TItems [TObject [(B"Tables", TItems [TObject [(B"TableName", TText (flat_map char_bytes [102; 239; 108; 128512; 47]%N)); (B"SQL", TNull)]]); (B"SchemaName", TText [])]])).
  { apply (vt_items (B" {""Tables"":[{""TableName"":""f\u00EFl\uD83d\uDE00\/"",""SQL"":null}],""SchemaName"":""""} ")). apply (it_last (B" ") _ (B" ") _ ltac:(bl) Schema ltac:(bl)). }
  assert (M1 : members_text (B" ""Dialect"":""\u0073qlite""") [(B"Dialect", TText (B"sqlite"))]).
  { apply (mt_last (B" ") (B"Dialect") (map N_of_ascii (B"Dialect")) [] [] (B"""\u0073qlite""") []); [bl|pl|bl|bl|apply (vt_text _ _ Dial)|bl]. }
  pose proof (mt_more [] (B"Schemas") (map N_of_ascii (B"Schemas")) (B" ") [] _ [] _ _ _ ltac:(bl) ltac:(pl) ltac:(bl) ltac:(bl) Schemas ltac:(bl) M1) as M2.
  pose proof (mt_more [LF] (B"VersionNums") (map N_of_ascii (B"VersionNums")) [] [] _ [] _ _ _ ltac:(bl) ltac:(pl) ltac:(bl) ltac:(bl) Nums ltac:(bl) M2) as M3.
  pose proof (mt_more (B" ") (B"$note") (map N_of_ascii (B"$note")) (B" ") (B" ") _ [] _ _ _ ltac:(bl) ltac:(pl) ltac:(bl) ltac:(bl) Note ltac:(bl) M3) as M4.
  exact (document_of (B" ") _ _ (B" ") ltac:(bl) (vt_members _ _ M4) ltac:(bl)).
Qed.

Fixpoint nodupb (l : list bytes) : bool := match l with [] => true | x :: l' => negb (bmem x l') && nodupb l' end.
Lemma nodupb_NoDup l : nodupb l = true -> NoDup l.
Proof.
  induction l as [|x l IH]; [constructor|]. cbn [nodupb]. intros H. apply andb_true_iff in H. destruct H as (Hx & Hl). constructor; [|apply IH, Hl]. intros I. rewrite (proj2 (bmem_In x l) I) in Hx. discriminate Hx.
Qed.
Definition member (k : bytes) (ms : list (bytes * jtree)) : option jtree := option_map snd (find (fun p => beqb (fst p) k) ms).
Lemma struct_described fs vs ms : nodupb (map fst ms) && nodupb (map fst fs) = true -> map fst vs = map fst fs ->
  Forall2 (fun f v => match member (fst f) ms with Some j => describes (snd f) (snd v) j | None => snd v = zero (snd f) end) fs vs ->
  forallb (fun p : bytes * jtree => ascii_name (fst p) && forallb (fun f : bytes * shape => beqb (fst f) (fst p) || negb (beqb (map to_lower_c (fst f)) (map to_lower_c (fst p)))) fs) ms = true ->
  describes (TStruct fs) (GStruct vs) (TObject ms).
Proof.
  intros N E H U. apply andb_true_iff in N. destruct N as (Nm & Nf). apply nodupb_NoDup in Nm, Nf.
  assert (K : forall k t v, In (k, t) fs -> In (k, v) vs -> match member k ms with Some j => describes t v j | None => v = zero t end).
  { clear U Nm. revert E Nf. induction H as [|[k t] [k' v] fs vs Hv H IH]; intros E Nf k1 t1 v1 It Iv; [destruct It|]. cbn [map fst snd] in *. injection E as -> E. inversion Nf as [|? ? N1 N2]; subst.
    destruct It as [It|It], Iv as [Iv|Iv].
    - injection It as -> ->. injection Iv as ->. exact Hv.
    - injection It as -> ->. exfalso. apply N1. rewrite <- E. apply in_map_iff. exists (k1, v1). auto.
    - injection Iv as -> ->. exfalso. apply N1. apply in_map_iff. exists (k1, t1). auto.
    - apply IH; assumption. }
  apply ds_struct; [exact Nm|exact E| | |].
  - intros k t v j It Iv Ij. specialize (K k t v It Iv). enough (M : member k ms = Some j) by (rewrite M in K; exact K). clear - Nm Ij. unfold member.
    induction ms as [|[k' j'] ms IH]; [destruct Ij|]. cbn [map fst find] in *. inversion Nm as [|? ? N1 N2]; subst. destruct Ij as [Ij|Ij].
    + injection Ij as -> ->. rewrite beqb_refl. reflexivity.
    + assert (beqb k' k = false) as -> by (apply beqb_neq; intros ->; apply N1, in_map_iff; exists (k, j); auto). apply IH; assumption.
  - intros k t v It Iv Ik. specialize (K k t v It Iv). enough (M : member k ms = None) by (rewrite M in K; exact K). unfold member.
    destruct (find (fun p => beqb (fst p) k) ms) as [p|] eqn:X; [|reflexivity]. apply find_some in X. destruct X as (I & B). apply beqb_eq in B. destruct Ik. rewrite <- B. apply in_map, I.
  - intros k j f Ij If Nk S. rewrite forallb_forall in U. specialize (U _ Ij). cbn [fst] in U. apply andb_true_iff in U. destruct U as (A & U). rewrite forallb_forall in U. specialize (U f If).
    rewrite (proj2 (beqb_neq _ _) Nk), (same_ascii _ _ A S), beqb_refl in U. discriminate U.
Qed.
Ltac described := apply struct_described; [vm_compute; reflexivity|vm_compute; reflexivity| |vm_compute; reflexivity].
Example C114_case : document other_layout other_tree /\ describes catalog_shape accented other_tree /\ fits catalog_shape accented /\ read_catalog other_layout empty_catalog = Ok accented.
Proof.
  split; [exact other_document|]. assert (F : fits catalog_shape accented) by (apply fitsb_fits; vm_compute; reflexivity).
  enough (D : describes catalog_shape accented other_tree) by (split; [exact D|]; split; [exact F|]; exact (C114 _ _ _ other_document D F)).
  assert (Table : describes table_shape (filled table_shape [(B"TableName", GString (flat_map char_bytes [102; 239; 108; 128512; 47]%N))]) (TObject [(B"TableName", TText (flat_map char_bytes [102; 239; 108; 128512; 47]%N)); (B"SQL", TNull)])).
  { described. repeat (constructor; [vm_compute; first [reflexivity | apply ds_string | apply (ds_null TString)]|]). constructor. }
  set (tv := filled table_shape _) in *. set (tj := TObject [(B"TableName", _); _]) in *.
  assert (Schema : describes schema_shape (filled schema_shape [(B"Tables", GList [tv])]) (TObject [(B"Tables", TItems [tj]); (B"SchemaName", TText [])])).
  { clearbody tv tj. described. repeat (constructor; [cbn; first [reflexivity | apply ds_string | exact (ds_list table_shape _ _ (Forall2_cons _ _ Table (Forall2_nil _)))]|]). constructor. }
  unfold accented. fold tv. set (sv := filled schema_shape _) in *. unfold other_tree. fold tj. set (sj := TObject [(B"Tables", _); _]) in *. clearbody sv sj.
  assert (Nums : describes (TList TInt) (GList [GInt 3; GInt (-1)]) (TItems [TNumber (B"3"); TNumber (B"-1")])).
  { apply ds_list. constructor; [apply (ds_int 3)|]. constructor; [apply (ds_int (-1))|constructor]. }
  described. repeat (constructor; [cbn; first [reflexivity | apply ds_string | exact Nums | exact (ds_list schema_shape _ _ (Forall2_cons _ _ Schema (Forall2_nil _)))]|]). constructor.
Qed.
(** "currentſCHEMA" with a long s. *)
Example C114_letters_case : same_letters (B"CurrentSchema") (B"current" ++ char_bytes 383 ++ B"CHEMA") /\ In (B"CurrentSchema", TString) catalog_fields.
Proof. split; [|vm_compute; tauto]. do 7 (apply sl_case; [reflexivity|]). apply sl_long_s; [reflexivity|]. do 5 (apply sl_case; [reflexivity|]). constructor. Qed.
Print Assumptions C109_texts.
Print Assumptions C114.
Print Assumptions C114_sources.
Print Assumptions C114_dumped.
Print Assumptions C114_letters.
Print Assumptions C114_null.
