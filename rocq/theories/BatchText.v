(** The texts of batch_insert.go as the databases read them. *)
From Verif Require Import GoStr GoStrFacts ModelSq SpecSql SqFacts ModelBatch SpecInsert.
From Coq Require Import ZifyBool ZifyNat.

(** ** Lists *)
Lemma join_length sep l : sep <> [] -> l <> [] -> List.length l <= S (List.length (join sep l)).
Proof.
  intros Hs. induction l as [|x [|y l] IH]; intros Hl; [congruence|cbn; lia|].
  rewrite join_cons by discriminate. rewrite !app_length. specialize (IH ltac:(discriminate)).
  destruct sep; [congruence|]. cbn [List.length] in *. unfold bytes in *. lia.
Qed.

Lemma items_join {A X} (item : bytes -> option (A * bytes)) sep (f : X -> bytes) (g : X -> A) l rest :
  sep <> [] -> l <> [] ->
  (forall x r, In x l -> r = rest \/ (exists r', r = sep ++ r') -> item (f x ++ r) = Some (g x, r)) ->
  strip_prefix sep rest = None ->
  items item sep (join sep (map f l) ++ rest) = Some (map g l, rest).
Proof.
  intros Hs Hl Hi Hr. unfold items.
  assert (Hn : forall l n, l <> [] -> List.length l <= n ->
    (forall x r, In x l -> r = rest \/ (exists r', r = sep ++ r') -> item (f x ++ r) = Some (g x, r)) ->
    read_list n item sep (join sep (map f l) ++ rest) = Some (map g l, rest)).
  { clear l Hl Hi. induction l as [|x l IH]; intros n Hl Hn Hi; [congruence|].
    destruct n as [|n]; [cbn in Hn; lia|]. cbn [read_list].
    destruct l as [|y l].
    - cbn [map join]. rewrite Hi by (cbn; auto). cbn [andthen]. rewrite Hr. reflexivity.
    - change (map f (x :: y :: l)) with (f x :: map f (y :: l)).
      rewrite join_cons by discriminate. rewrite <- !app_assoc.
      rewrite Hi by (cbn; eauto). cbn [andthen]. rewrite strip_prefix_app.
      rewrite IH; [reflexivity|discriminate|cbn [List.length] in *; lia|]. intros z r Hz. apply Hi. right. exact Hz. }
  apply Hn; [exact Hl| |exact Hi].
  rewrite app_length. pose proof (join_length sep (map f l) Hs) as H. rewrite map_length in H.
  destruct l; [congruence|]. specialize (H ltac:(discriminate)). unfold bytes in *. lia.
Qed.

Ltac delim := solve [exact I | cbn; repeat split; solve [reflexivity | discriminate]].

Lemma read_names d l rest : l <> [] -> delimited rest -> strip_prefix (B", ") rest = None ->
  items (lex_ident d) (B", ") (join (B", ") (map (quote_identifier d) l) ++ rest) = Some (map (denoted d) l, rest).
Proof.
  intros Hl Hd Hr. apply items_join; [discriminate|exact Hl| |exact Hr].
  intros x r _ [->|(r' & ->)]; apply lex_quote_identifier; [exact Hd|delim].
Qed.

(** The path of the table. *)
Definition path_of (bi : batch_insert) : list bytes :=
  match bi_schema bi with [] => [bi_table bi] | s => [s; bi_table bi] end.
Lemma table_name_path bi : table_name bi = join (B".") (map (quote_identifier (bi_dialect bi)) (path_of bi)).
Proof. unfold table_name, path_of. destruct (bi_schema bi); [reflexivity|]. cbn [map join]. rewrite <- app_assoc. reflexivity. Qed.
Lemma read_dotted d l rest : l <> [] -> delimited rest -> strip_prefix (B".") rest = None ->
  read_path d (join (B".") (map (quote_identifier d) l) ++ rest) = Some (map (denoted d) l, rest).
Proof.
  intros Hl Hd Hr. unfold read_path. apply items_join; [discriminate|exact Hl| |exact Hr].
  intros x r _ [->|(r' & ->)]; apply lex_quote_identifier; [exact Hd|delim].
Qed.
Lemma path_nonempty bi : path_of bi <> [].
Proof. unfold path_of. destruct (bi_schema bi); discriminate. Qed.
Lemma read_table bi rest : delimited rest -> strip_prefix (B".") rest = None ->
  read_path (bi_dialect bi) (table_name bi ++ rest) = Some (map (denoted (bi_dialect bi)) (path_of bi), rest).
Proof. intros Hd Hr. rewrite table_name_path. apply read_dotted; [apply path_nonempty|exact Hd|exact Hr]. Qed.

(** ** Parameters *)
Lemma take_digits_app s rest : Forall (fun c => is_digit c = true) s ->
  (match rest with c :: _ => is_digit c = false | [] => True end) -> take_digits (s ++ rest) = (s, rest).
Proof.
  intros Hs Hr. induction Hs as [|c s Hc Hs IH]; cbn [app].
  - destruct rest as [|c rest]; [reflexivity|]. cbn [take_digits]. rewrite Hr. reflexivity.
  - cbn [take_digits]. rewrite Hc, IH. reflexivity.
Qed.
Lemma read_number_dec k rest : (match rest with c :: _ => is_digit c = false | [] => True end) ->
  read_number (nat_dec k ++ rest) = Some (Number k, rest).
Proof.
  intros Hr. unfold read_number, nat_dec. rewrite take_digits_app; [|apply N_dec_digits|exact Hr].
  rewrite dec_N_N_dec. cbn [andthen]. rewrite Nat2N.id. reflexivity.
Qed.
Definition param_of (d : dialect) (k : nat) : param :=
  match d with Postgres | SQLServer => Number k | _ => Next end.
Lemma read_param_placeholder d k rest : (match rest with c :: _ => is_digit c = false | [] => True end) ->
  read_param d (placeholder d k ++ rest) = Some (param_of d k, rest).
Proof.
  intros Hr. unfold read_param, placeholder, param_of.
  destruct d; rewrite <- ?app_assoc, strip_prefix_app; cbn [andthen]; try reflexivity; apply read_number_dec; exact Hr.
Qed.

Lemma read_row_values d k w rest : 0 < w ->
  read_row d (row_values d k w ++ rest) = Some (map (fun j => param_of d (k + S j)) (seq 0 w), rest).
Proof.
  intros Hw. unfold read_row, row_values. rewrite <- !app_assoc, strip_prefix_app. cbn [andthen].
  rewrite (items_join _ _ (fun j => placeholder d (k + S j)) (fun j => param_of d (k + S j))).
  - cbn [andthen]. rewrite strip_prefix_app. reflexivity.
  - discriminate.
  - destruct w; [lia|discriminate].
  - intros x r _ [->|(r' & ->)]; apply read_param_placeholder; reflexivity.
  - reflexivity.
Qed.
Lemma read_rows_values d n w rest : 0 < w -> 0 < n -> strip_prefix (B", ") rest = None ->
  read_rows d (rows_values d n w ++ rest)
  = Some (map (fun i => map (fun j => param_of d (i * w + S j)) (seq 0 w)) (seq 0 n), rest).
Proof.
  intros Hw Hn Hr. unfold read_rows, rows_values.
  apply (items_join _ _ (fun i => row_values d (i * w) w)
           (fun i => map (fun j => param_of d (i * w + S j)) (seq 0 w))); [discriminate| | |exact Hr].
  - destruct n; [lia|discriminate].
  - intros x r _ _. apply read_row_values. exact Hw.
Qed.

Definition indices (n w : nat) : list (list nat) := map (fun i => seq (i * w) w) (seq 0 n).
Lemma resolve_indices d n w :
  resolve 0 (map (fun i => map (fun j => param_of d (i * w + S j)) (seq 0 w)) (seq 0 n)) = indices n w.
Proof.
  assert (Hrow : forall k w b, (forall j, param_of d j = Next) -> resolve_row k (map (fun j => param_of d (b + S j)) (seq 0 w)) = (seq k w, k + w)).
  { intros k w' b Hx. rewrite (map_ext _ (fun _ => Next)) by (intros; apply Hx).
    revert k. generalize 0. induction w' as [|w' IH]; intros s k; cbn; [f_equal; lia|].
    rewrite IH. f_equal. lia. }
  assert (Hnum : forall k w b, (forall j, param_of d j = Number j) -> resolve_row k (map (fun j => param_of d (b + S j)) (seq 0 w)) = (seq b w, k)).
  { intros k w' b Hx.
    assert (H : forall s, resolve_row k (map (fun j => param_of d (b + S j)) (seq s w')) = (seq (b + s) w', k)).
    { induction w' as [|w' IH]; intros s; cbn [seq map resolve_row]; [reflexivity|].
      rewrite Hx, IH. replace (pred (b + S s)) with (b + s) by lia. rewrite <- Nat.add_succ_r. reflexivity. }
    rewrite H, Nat.add_0_r. reflexivity. }
  assert (Hd : (forall j, param_of d j = Next) \/ (forall j, param_of d j = Number j)) by (destruct d; cbn; auto).
  unfold indices. destruct Hd as [Hd|Hd].
  - assert (H : forall m s, resolve (s * w) (map (fun i => map (fun j => param_of d (i * w + S j)) (seq 0 w)) (seq s m))
                            = map (fun i => seq (i * w) w) (seq s m)).
    { induction m as [|m IH]; intros s; cbn [seq map resolve]; [reflexivity|].
      rewrite Hrow by exact Hd. replace (s * w + w) with (S s * w) by lia. rewrite IH. reflexivity. }
    apply (H n 0).
  - assert (H : forall m s k, resolve k (map (fun i => map (fun j => param_of d (i * w + S j)) (seq 0 w)) (seq s m))
                              = map (fun i => seq (i * w) w) (seq s m)).
    { induction m as [|m IH]; intros s k; cbn [seq map resolve]; [reflexivity|].
      rewrite Hnum by exact Hd. rewrite IH. reflexivity. }
    apply H.
Qed.

(** ** Statements *)
Definition den (bi : batch_insert) : bytes -> bytes := denoted (bi_dialect bi).
Definition dens (bi : batch_insert) : list bytes -> list bytes := map (den bi).

Lemma lists_eqb_iff a b : lists_eqb a b = true <-> a = b.
Proof.
  unfold lists_eqb. rewrite andb_true_iff, Nat.eqb_eq. revert b. induction a as [|x a IH]; intros [|y b]; cbn.
  - tauto.
  - split; [intros [H _]; discriminate|discriminate].
  - split; [intros [H _]; discriminate|discriminate].
  - rewrite andb_true_iff, beqb_eq. specialize (IH b). split.
    + intros (H1 & -> & H2). f_equal. apply IH. split; [lia|exact H2].
    + intros [= -> ->]. destruct IH as [_ IH]. specialize (IH eq_refl). split; [lia|]. split; [reflexivity|]. apply IH.
Qed.
Lemma lists_eqb_refl a : lists_eqb a a = true.
Proof. apply lists_eqb_iff. reflexivity. Qed.

Lemma read_same_key bi k rest : delimited rest ->
  read_same (bi_dialect bi) (dens bi (path_of bi))
    (table_name bi ++ B"." ++ quote_identifier (bi_dialect bi) k ++ B" = tmp_." ++ quote_identifier (bi_dialect bi) k ++ rest)
  = Some ((den bi k, den bi k), rest).
Proof.
  intros Hr. unfold read_same.
  replace (table_name bi ++ B"." ++ quote_identifier (bi_dialect bi) k ++ B" = tmp_." ++ quote_identifier (bi_dialect bi) k ++ rest)
    with (join (B".") (map (quote_identifier (bi_dialect bi)) (path_of bi ++ [k])) ++ B" = tmp_." ++ quote_identifier (bi_dialect bi) k ++ rest).
  2:{ rewrite table_name_path. unfold path_of. destruct (bi_schema bi); cbn [app map join]; rewrite <- !app_assoc; reflexivity. }
  rewrite read_dotted; [|destruct (path_of bi); discriminate|delim|reflexivity]. cbn [andthen].
  rewrite map_app. cbn [map]. rewrite removelast_last, last_last.
  unfold dens, den. rewrite lists_eqb_refl, strip_prefix_app. cbn [andthen]. rewrite lex_quote_identifier by exact Hr. reflexivity.
Qed.

Lemma read_key_match bi rest : key_columns bi <> [] -> delimited rest -> strip_prefix (B" AND ") rest = None ->
  items (read_same (bi_dialect bi) (dens bi (path_of bi))) (B" AND ") (key_match bi ++ rest)
  = Some (map (fun k => (den bi k, den bi k)) (key_columns bi), rest).
Proof.
  intros Hk Hd Hr. unfold key_match.
  apply (items_join _ _ (fun k => table_name bi ++ B"." ++ quote_identifier (bi_dialect bi) k ++ B" = tmp_." ++ quote_identifier (bi_dialect bi) k)
          (fun k => (den bi k, den bi k))); [discriminate|exact Hk| |exact Hr].
  intros x r _ [->|(r' & ->)]; rewrite <- !app_assoc; apply read_same_key; [exact Hd|delim].
Qed.

(** The clause that the INSERT statement of [bi] has. *)
Definition clause_of (bi : batch_insert) : clause :=
  match key_columns bi with
  | [] => Plain
  | k0 :: _ =>
      match bi_dialect bi with
      | SQLite | Postgres =>
          OnConflict (dens bi (key_columns bi)) (map (fun x => (den bi x, New (den bi x))) (non_key_columns bi))
      | MySQL =>
          OnDuplicateKey (match non_key_columns bi with
                          | [] => [(den bi k0, Old (den bi k0))]
                          | l => map (fun x => (den bi x, New (den bi x))) l
                          end)
      | SQLServer => NotExists (map (fun k => (den bi k, den bi k)) (key_columns bi))
      | Other => Plain
      end
  end.

Lemma read_sets d item mid (l : list bytes) :
  (forall x r, delimited r -> item (quote_identifier d x ++ mid x ++ r) = Some ((denoted d x, New (denoted d x)), r)) ->
  l <> [] ->
  items item (B", ") (join (B", ") (map (fun x => quote_identifier d x ++ mid x) l)) = Some (map (fun x => (denoted d x, New (denoted d x))) l, []).
Proof.
  intros Hi Hl. rewrite <- (app_nil_r (join _ _)).
  apply (items_join _ _ (fun x => quote_identifier d x ++ mid x) (fun x => (denoted d x, New (denoted d x)))); [discriminate|exact Hl| |reflexivity].
  intros x r _ [->|(r' & ->)]; rewrite <- ?app_assoc; apply Hi; delim.
Qed.

Lemma read_insert_end bi : bi_dialect bi <> SQLServer ->
  read_clause (bi_dialect bi) (insert_end bi) = Some (clause_of bi).
Proof.
  intros Hs. unfold insert_end, clause_of, dens, den.
  destruct (key_columns bi) as [|k0 ks] eqn:Ek; [destruct (bi_dialect bi); reflexivity|].
  assert (Hx : forall d, d = SQLite \/ d = Postgres ->
    read_clause d (B" ON CONFLICT (" ++ join (B", ") (map (quote_identifier d) (k0 :: ks)) ++ B") " ++
      match non_key_columns bi with
      | [] => B"DO NOTHING"
      | l => B"DO UPDATE SET " ++ join (B", ") (map (fun x => quote_identifier d x ++ B" = EXCLUDED." ++ quote_identifier d x) l)
      end)
    = Some (OnConflict (map (denoted d) (k0 :: ks)) (map (fun x => (denoted d x, New (denoted d x))) (non_key_columns bi)))).
  { intros d Hd. unfold read_clause.
    replace (match d with SQLite | Postgres => _ | MySQL => _ | _ => None end) with
      (let? r := strip_prefix (B" ON CONFLICT (") (B" ON CONFLICT (" ++ join (B", ") (map (quote_identifier d) (k0 :: ks)) ++ B") " ++
      match non_key_columns bi with
      | [] => B"DO NOTHING"
      | l => B"DO UPDATE SET " ++ join (B", ") (map (fun x => quote_identifier d x ++ B" = EXCLUDED." ++ quote_identifier d x) l)
      end) in
          let? (keys, r) := items (lex_ident d) (B", ") r in
          let? r := strip_prefix (B") ") r in
          match strip_prefix (B"DO NOTHING") r with
          | Some r => ends (OnConflict keys []) r
          | None =>
              let? r := strip_prefix (B"DO UPDATE SET ") r in
              let? (sets, r) := items (read_set_excluded d) (B", ") r in
              ends (OnConflict keys sets) r
          end) by (destruct Hd as [->| ->]; reflexivity).
    rewrite strip_prefix_app. cbn [andthen].
    rewrite read_names; [|discriminate|delim|reflexivity]. cbn [andthen]. rewrite strip_prefix_app. cbn [andthen].
    assert (Hnd : non_key_columns bi = [] \/ non_key_columns bi <> []) by (destruct (non_key_columns bi); [left; reflexivity|right; discriminate]).
    destruct Hnd as [->|Hnd].
    - destruct Hd as [->| ->]; reflexivity.
    - destruct (non_key_columns bi) as [|n0 nk]; [congruence|].
      match goal with |- (match ?l with [] => _ | _ :: _ => ?b end) = _ => change (b = Some (OnConflict (map (denoted d) (k0 :: ks))
       (map (fun x : bytes => (denoted d x, New (denoted d x))) (n0 :: nk)))) end.
      set (sets := join (B", ") _).
      change (strip_prefix (B"DO NOTHING") (B"DO UPDATE SET " ++ sets)) with (@None bytes). cbn iota.
      rewrite strip_prefix_app. cbn [andthen]. subst sets.
      rewrite (read_sets d (read_set_excluded d) (fun x => B" = EXCLUDED." ++ quote_identifier d x)); [|  |exact Hnd].
      + destruct Hd as [->| ->]; reflexivity.
      + intros x r Hr. unfold read_set_excluded. rewrite <- app_assoc. rewrite lex_quote_identifier by delim. cbn [andthen].
        rewrite strip_prefix_app. cbn [andthen]. rewrite lex_quote_identifier by exact Hr. reflexivity. }
  destruct (bi_dialect bi); [apply Hx; auto|apply Hx; auto| |congruence|reflexivity].
  unfold read_clause.
  match goal with |- (match ?l with [] => _ | _ :: _ => ?b end) = ?r => change (b = r) end.
  rewrite strip_prefix_app. cbn [andthen].
  destruct (non_key_columns bi) as [|n0 nk].
  - replace (quote_identifier MySQL k0 ++ B" = " ++ quote_identifier MySQL k0) with
      (join (B", ") (map (fun x => quote_identifier MySQL x ++ B" = " ++ quote_identifier MySQL x) [k0]) ++ []) by (cbn [map join]; rewrite app_nil_r; reflexivity).
    rewrite (items_join _ _ _ (fun x => (denoted MySQL x, Old (denoted MySQL x)))); [reflexivity|discriminate|discriminate| |reflexivity].
    intros x r _ Hr. unfold read_set_values. rewrite <- !app_assoc. rewrite lex_quote_identifier by delim. cbn [andthen].
    assert (Hv : strip_prefix (B" = VALUES(") (B" = " ++ quote_identifier MySQL x ++ r) = None).
    { change (B" = VALUES(") with (B" = " ++ B"VALUES("). set (y := quote_identifier MySQL x ++ r).
      change (strip_prefix (B" = " ++ B"VALUES(") (B" = " ++ y)) with (strip_prefix (B"VALUES(") y). subst y.
      unfold quote_identifier. destruct (needs_quoting MySQL x) eqn:E; [reflexivity|].
      destruct (strip_prefix (B"VALUES(") (x ++ r)) as [y|] eqn:Ey; [|reflexivity]. exfalso.
      unfold needs_quoting in E. destruct x as [|c x]; [discriminate|].
      apply strip_prefix_Some in Ey. cbn [app B] in Ey. assert (Hc : c = "V"%char) by congruence. subst c.
      destruct (bmem ("V"%char :: x) special_names) eqn:Es; [apply bmem_In in Es; cbn in Es; intuition discriminate|].
      discriminate. }
    rewrite Hv, strip_prefix_app. cbn [andthen].
    rewrite lex_quote_identifier by (destruct Hr as [->|(r' & ->)]; delim). reflexivity.
  - rewrite (read_sets MySQL (read_set_values MySQL) (fun x => B" = VALUES(" ++ quote_identifier MySQL x ++ B")")); [| |discriminate].
    + reflexivity.
    + intros x r Hr. unfold read_set_values. rewrite <- !app_assoc. rewrite lex_quote_identifier by delim. cbn [andthen].
      rewrite strip_prefix_app. cbn [andthen]. rewrite lex_quote_identifier by delim. cbn [andthen]. rewrite strip_prefix_app. reflexivity.
Qed.

Lemma insert_end_sep bi : strip_prefix (B", ") (insert_end bi) = None.
Proof.
  unfold insert_end. destruct (key_columns bi); [reflexivity|]. destruct (bi_dialect bi); reflexivity.
Qed.

Lemma key_columns_in bi k : In k (key_columns bi) -> In k (bi_columns bi).
Proof.
  unfold key_columns. destruct (forallb _ _) eqn:E; [|intros []]. intros H. rewrite forallb_forall in E. apply bmem_In. apply E. exact H.
Qed.

Lemma read_insert_text bi n : bi_columns bi <> [] -> 0 < n ->
  read_statement (bi_dialect bi) (insert_text bi n)
  = Some (Insert {| ins_table := dens bi (path_of bi); ins_columns := dens bi (bi_columns bi);
                    ins_rows := indices n (List.length (bi_columns bi)); ins_clause := clause_of bi |}).
Proof.
  intros Hc Hn. set (d := bi_dialect bi). set (w := List.length (bi_columns bi)).
  assert (Hw : 0 < w) by (subst w; destruct (bi_columns bi); [congruence|cbn; lia]).
  assert (Hp : has_prefix (insert_text bi n) (B"INSERT ") = true).
  { unfold insert_text, insert_start. rewrite <- !app_assoc.
    change (B"INSERT INTO ") with (B"INSERT " ++ B"INTO "). rewrite <- app_assoc. apply has_prefix_app. }
  unfold read_statement. rewrite Hp.
  assert (H : read_insert d (insert_text bi n) = Some {| ins_table := dens bi (path_of bi); ins_columns := dens bi (bi_columns bi);
                    ins_rows := indices n w; ins_clause := clause_of bi |}); [|rewrite H; reflexivity].
  unfold read_insert, insert_text, insert_start.
  remember (values_start bi) as v eqn:Ev.
  rewrite <- !app_assoc, strip_prefix_app. cbn [andthen].
  unfold d. rewrite read_table by (delim || reflexivity). fold d. cbn [andthen]. rewrite strip_prefix_app. cbn [andthen].
  unfold column_names at 1. fold d. rewrite read_names by (exact Hc || delim || reflexivity). cbn [andthen]. rewrite strip_prefix_app. cbn [andthen].
  fold w.
  destruct (dialect_eqb d SQLServer) eqn:Es.
  - assert (Hds : d = SQLServer) by (destruct d; try discriminate; reflexivity).
    destruct (key_columns bi) as [|k0 ks] eqn:Ek.
    + replace (insert_end bi) with (@nil ascii) by (unfold insert_end; rewrite Ek; reflexivity).
      replace (clause_of bi) with Plain by (unfold clause_of; rewrite Ek; reflexivity).
      assert (Hv : v = B" VALUES ") by (rewrite Ev; unfold values_start; fold d; rewrite Hds, ?Ek; destruct (identity_columns bi); reflexivity).
      rewrite Hv. clear Ev.
      rewrite Hds. replace (strip_prefix (B" SELECT ") (B" VALUES " ++ rows_values SQLServer n w ++ [])) with (@None bytes) by reflexivity.
      rewrite strip_prefix_app. cbn [andthen].
      rewrite read_rows_values by (exact Hw || exact Hn || reflexivity). cbn [andthen read_clause]. rewrite resolve_indices.
      unfold dens, den. fold d. rewrite Hds. reflexivity.
    + assert (Hv : v = B" SELECT " ++ column_names bi ++ B" FROM (VALUES ") by (rewrite Ev; unfold values_start; fold d; rewrite Hds, ?Ek; destruct (identity_columns bi); reflexivity).
      rewrite Hv. clear Ev.
      assert (He : insert_end bi = B") AS tmp_ (" ++ column_names bi ++ B") WHERE NOT EXISTS (SELECT 1 FROM "
          ++ table_name bi ++ B" WHERE " ++ key_match bi ++ B")").
      { unfold insert_end. rewrite Ek. fold d. rewrite Hds. reflexivity. }
      rewrite He. rewrite <- !app_assoc.
      replace (match d with SQLServer => strip_prefix (B" SELECT ") _ | _ => None end)
        with (Some (column_names bi ++ B" FROM (VALUES " ++ rows_values d n w ++ B") AS tmp_ (" ++ column_names bi ++ B") WHERE NOT EXISTS (SELECT 1 FROM "
          ++ table_name bi ++ B" WHERE " ++ key_match bi ++ B")")) by (rewrite Hds, strip_prefix_app; reflexivity).
      unfold column_names. fold d. rewrite read_names by (exact Hc || delim || reflexivity). cbn [andthen]. rewrite strip_prefix_app. cbn [andthen].
      rewrite read_rows_values by (exact Hw || exact Hn || reflexivity). cbn [andthen]. rewrite strip_prefix_app. cbn [andthen].
      rewrite read_names by (exact Hc || delim || reflexivity). cbn [andthen]. rewrite strip_prefix_app. cbn [andthen].
      unfold d. rewrite read_table by (delim || reflexivity). cbn [andthen]. rewrite strip_prefix_app. cbn [andthen].
      fold (den bi). fold (dens bi (path_of bi)).
      rewrite read_key_match by (rewrite ?Ek; (discriminate || delim || reflexivity)). cbn [andthen]. change (strip_prefix (B")") (B")")) with (Some (@nil ascii)). cbn [andthen].
      rewrite !lists_eqb_refl. cbn [andb ends]. rewrite resolve_indices. unfold clause_of. rewrite Ek. fold d. rewrite Hds. reflexivity.
  - assert (Hds : d <> SQLServer) by (intros E; rewrite E in Es; discriminate).
    assert (Hv : v = B" VALUES " \/ (d = Postgres /\ v = B" OVERRIDING SYSTEM VALUE VALUES ")).
    { rewrite Ev. unfold values_start. fold d. destruct (identity_columns bi), d; auto; congruence. }
    clear Ev.
    replace (match d with SQLServer => strip_prefix (B" SELECT ") (v ++ rows_values d n w ++ insert_end bi) | _ => None end) with (@None bytes) by (destruct d; reflexivity || congruence).
    replace (match d with Postgres => _ | _ => _ end) with (Some (rows_values d n w ++ insert_end bi)).
    2:{ destruct Hv as [->|[E ->]].
        - destruct d; rewrite ?strip_prefix_app; try reflexivity.
        - rewrite E, strip_prefix_app. reflexivity. }
    cbn [andthen]. rewrite read_rows_values by (exact Hw || exact Hn || apply insert_end_sep). cbn [andthen].
    unfold d. rewrite read_insert_end by exact Hds. cbn [andthen]. rewrite resolve_indices. reflexivity.
Qed.

Lemma only_sqlserver {A} d (x : option A) : d = SQLServer -> match d with SQLServer => x | _ => None end = x.
Proof. intros ->. reflexivity. Qed.
Lemma read_update_text bi n : bi_dialect bi = SQLServer -> bi_columns bi <> [] -> 0 < n ->
  key_columns bi <> [] -> update_columns bi <> [] ->
  read_statement (bi_dialect bi) (update_text bi n)
  = Some (Update {| upd_table := dens bi (path_of bi); upd_sets := map (fun x => (den bi x, New (den bi x))) (update_columns bi);
                    upd_columns := dens bi (bi_columns bi); upd_rows := indices n (List.length (bi_columns bi));
                    upd_same := map (fun k => (den bi k, den bi k)) (key_columns bi) |}).
Proof.
  intros Hds Hc Hn Hk Hu. set (d := bi_dialect bi) in *. set (w := List.length (bi_columns bi)).
  assert (Hw : 0 < w) by (subst w; destruct (bi_columns bi); [congruence|cbn; lia]).
  unfold read_statement.
  replace (has_prefix (update_text bi n) (B"INSERT ")) with false by reflexivity.
  replace (has_prefix (update_text bi n) (B"UPDATE ")) with true by reflexivity.
  match goal with |- andthen (read_update d ?t) _ = _ => assert (H : read_update d t = Some {| upd_table := dens bi (path_of bi); upd_sets := map (fun x => (den bi x, New (den bi x))) (update_columns bi);
                    upd_columns := dens bi (bi_columns bi); upd_rows := indices n w;
                    upd_same := map (fun k => (den bi k, den bi k)) (key_columns bi) |}); [|rewrite H; reflexivity] end.
  unfold read_update, update_text. fold d w. rewrite strip_prefix_app. cbn [andthen].
  rewrite (only_sqlserver d _ Hds).
  unfold d at 1. rewrite read_table by (delim || reflexivity). cbn [andthen]. fold d. rewrite strip_prefix_app. cbn [andthen].
  rewrite (items_join _ _ (fun x => quote_identifier d x ++ B" = tmp_." ++ quote_identifier d x) (fun x => (denoted d x, New (denoted d x))));
    [|discriminate|exact Hu| |reflexivity].
  2:{ intros x r _ Hr. unfold read_set_tmp. rewrite <- !app_assoc. rewrite lex_quote_identifier by delim. cbn [andthen].
      rewrite strip_prefix_app. cbn [andthen]. rewrite lex_quote_identifier by (destruct Hr as [->|(r' & ->)]; delim). reflexivity. }
  cbn [andthen]. rewrite strip_prefix_app. cbn [andthen].
  unfold d at 1. rewrite read_table by (delim || reflexivity). cbn [andthen]. fold d. rewrite strip_prefix_app. cbn [andthen].
  rewrite read_rows_values by (exact Hw || exact Hn || reflexivity). cbn [andthen]. rewrite strip_prefix_app. cbn [andthen].
  unfold column_names. fold d. rewrite read_names by (exact Hc || delim || reflexivity). cbn [andthen]. rewrite strip_prefix_app. cbn [andthen].
  rewrite <- (app_nil_r (key_match bi)). unfold d. fold (den bi). fold (dens bi (path_of bi)).
  rewrite read_key_match by (exact Hk || delim || reflexivity). cbn [andthen]. rewrite lists_eqb_refl. cbn [ends].
  rewrite resolve_indices. reflexivity.
Qed.
