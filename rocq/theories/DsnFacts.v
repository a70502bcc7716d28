(** Facts about data source names. *)
From Verif Require Import GoStr GoStrFacts ModelSq SpecSql SpecInsert ModelDsn SpecDsn VersionFacts DdlFacts.
From Coq Require Import ZifyBool ZifyNat.

(** ** Escapes *)
Lemma unescape_decoded plus s : unescape plus s = decoded plus s.
Proof.
  induction s as [s IH] using (well_founded_induction (well_founded_ltof _ (@List.length ascii))). unfold ltof in IH. destruct s as [|c s]; [reflexivity|]. cbn [unescape decoded].
  destruct (ceqb c "%"%char).
  - destruct s as [|x [|y s]]; try reflexivity. change (unhex x) with (hexval x). change (unhex y) with (hexval y). rewrite IH by (cbn; lia). destruct (hexval x), (hexval y); cbn [andthen]; reflexivity.
  - rewrite IH by (cbn; lia). destruct (decoded plus s); [|reflexivity]. cbn [andthen]. destruct plus, (ceqb c "+"%char); reflexivity.
Qed.
Ltac all_ascii c := destruct c as [b0 b1 b2 b3 b4 b5 b6 b7]; destruct b0, b1, b2, b3, b4, b5, b6, b7.
Lemma decoded_escape_char c s : decoded true (escape_char c ++ s) = andthen (decoded true s) (fun r => Some (c :: r)).
Proof. all_ascii c; reflexivity. Qed.
Lemma decoded_escape s rest : decoded true (query_escape s ++ rest) = andthen (decoded true rest) (fun r => Some (s ++ r)).
Proof.
  induction s as [|c s IH]; [cbn; destruct (decoded true rest); reflexivity|]. unfold query_escape in *. cbn [flat_map]. rewrite <- app_assoc, decoded_escape_char, IH.
  destruct (decoded true rest); reflexivity.
Qed.
Lemma decoded_escaped s : decoded true (query_escape s) = Some s.
Proof. rewrite <- (app_nil_r (query_escape s)), decoded_escape. cbn. rewrite app_nil_r. reflexivity. Qed.
Definition safe_char (c : ascii) : bool := is_letter c || is_digit c || existsb (ceqb c) (B"-_.~+%").
Lemma escape_safe s : forallb safe_char (query_escape s) = true.
Proof.
  induction s as [|c s IH]; [reflexivity|]. unfold query_escape in *. cbn [flat_map]. rewrite forallb_app, IH, andb_true_r. all_ascii c; reflexivity.
Qed.
Lemma safe_not c s : safe_char c = false -> forallb safe_char s = true -> ~ In c s.
Proof. intros E F I. rewrite forallb_forall in F. rewrite (F c I) in E. discriminate E. Qed.
Lemma escape_words s : forallb word_char s = true -> query_escape s = s.
Proof.
  induction s as [|c s IH]; [reflexivity|]. cbn [forallb]. intros H. apply andb_true_iff in H as [Hc Hs]. unfold query_escape in *. cbn [flat_map]. rewrite (IH Hs).
  assert (escape_char c = [c]) as ->; [|reflexivity]. revert Hc. clear. all_ascii c; vm_compute; congruence.
Qed.

(** ** Sorted pairs *)
Lemma bltb_irrefl s : bltb s s = false.
Proof. induction s as [|c s IH]; [reflexivity|]. cbn [bltb]. rewrite Nat.ltb_irrefl, ?ceqb_refl. rewrite ?Nat.eqb_refl. exact IH. Qed.
Lemma values_cons k p q : values k (p :: q) = (if beqb (fst p) k then [snd p] else []) ++ values k q.
Proof. unfold values. cbn [filter]. destruct (beqb (fst p) k); reflexivity. Qed.
Lemma values_app k a b : values k (a ++ b) = values k a ++ values k b.
Proof. unfold values. rewrite filter_app, map_app. reflexivity. Qed.
Lemma values_insert k p q : values k (insert_pair p q) = values k (p :: q).
Proof.
  induction q as [|x q IH]; [reflexivity|]. cbn [insert_pair]. destruct (bltb (fst x) (fst p)) eqn:E; [|reflexivity]. rewrite values_cons, IH, !values_cons.
  destruct (beqb_spec (fst x) k) as [Ex|]; destruct (beqb_spec (fst p) k) as [Ep|]; try reflexivity. rewrite Ex, Ep, bltb_irrefl in E. discriminate E.
Qed.
Lemma values_sort k q : values k (sort_pairs q) = values k q.
Proof. induction q as [|p q IH]; [reflexivity|]. cbn [sort_pairs fold_right]. rewrite values_insert, !values_cons. f_equal. exact IH. Qed.
Lemma insert_in p x q : In x (insert_pair p q) <-> x = p \/ In x q.
Proof.
  induction q as [|y q IH]; cbn [insert_pair]; [cbn; intuition congruence|]. destruct (bltb (fst y) (fst p)); cbn [In]; [rewrite IH|]; intuition congruence.
Qed.
Lemma sort_in x q : In x (sort_pairs q) <-> In x q.
Proof. induction q as [|p q IH]; [reflexivity|]. cbn [sort_pairs fold_right]. rewrite insert_in. cbn [In]. fold (sort_pairs q). rewrite IH. intuition congruence. Qed.

(** ** The text of the parameters *)
Lemma params_join raw (l : list (bytes * bytes)) (f : bytes * bytes -> bytes) :
  (forall p, In p l -> ~ In "&"%char (f p) /\ f p <> [] /\ param_of raw (f p) = Some p) ->
  params_of raw (join (B"&") (map f l)) = Some l.
Proof.
  intros H. unfold params_of. destruct l as [|p l]; [reflexivity|]. change (B"&") with ["&"%char]. rewrite split_byte_join.
  - induction (p :: l) as [|x k IH]; [reflexivity|]. cbn [map filter]. destruct (H x (or_introl eq_refl)) as (_ & N & P). destruct (f x) as [|c s] eqn:E; [congruence|]. cbn [each]. rewrite P. cbn [andthen].
    rewrite IH; [reflexivity|]. intros y I. exact (H y (or_intror I)).
  - discriminate.
  - apply Forall_forall. intros s I. apply in_map_iff in I as (y & <- & I). exact (proj1 (H y I)).
Qed.
Lemma pair_escaped raw p : (raw = true -> forallb word_char (fst p) = true) ->
  param_of raw (query_escape (fst p) ++ B"=" ++ query_escape (snd p)) = Some p.
Proof.
  intros W. unfold param_of, at_first. change (B"=" ++ query_escape (snd p)) with ("="%char :: query_escape (snd p)). rewrite cut_byte_app by (apply safe_not; [reflexivity|apply escape_safe]).
  rewrite !decoded_escaped. cbn [andthen]. destruct p as [k v]. destruct raw; [|reflexivity]. cbn [fst snd] in *. rewrite (escape_words k (W eq_refl)). reflexivity.
Qed.
Lemma encode_read raw q : (raw = true -> forall k v, In (k, v) q -> forallb word_char k = true) -> params_of raw (encode q) = Some (sort_pairs q).
Proof.
  intros W. unfold encode. apply params_join. intros p I. split; [|split].
  - intros J. apply in_app_or in J as [J|J]; [revert J; apply safe_not; [reflexivity|apply escape_safe]|]. destruct J as [J|J]; [discriminate J|]. revert J. apply safe_not; [reflexivity|apply escape_safe].
  - intros E. apply app_eq_nil in E as [_ E]. discriminate E.
  - apply pair_escaped. intros E. destruct p as [k v]. apply (W E k v). apply sort_in. exact I.
Qed.
Lemma join_in c sep l : In c (join sep l) -> In c sep \/ exists x, In x l /\ In c x.
Proof.
  induction l as [|x l IH]; [intros []|]. destruct l as [|y l]; [intros I; right; exists x; split; [left; reflexivity|exact I]|]. rewrite join_cons by discriminate. intros I. apply in_app_or in I as [I|I]; [right; exists x; split; [left; reflexivity|exact I]|].
  apply in_app_or in I as [I|I]; [left; exact I|]. destruct (IH I) as [J|(z & J & K)]; [left; exact J|right; exists z; split; [right; exact J|exact K]].
Qed.
Lemma encode_chars q c : safe_char c = false -> c <> "="%char -> c <> "&"%char -> ~ In c (encode q).
Proof.
  intros S E A I. unfold encode in I. apply join_in in I as [[I|[]]|(x & I & J)]; [congruence|]. apply in_map_iff in I as (p & <- & _). apply in_app_or in J as [J|[J|J]]; [|congruence|]; revert J; apply safe_not; try exact S; exact (escape_safe _).
Qed.

(** The parameters that were written. *)
Definition raw_pair (p : bytes * bytes) : bytes := fst p ++ B"=" ++ snd p.
Definition key_char (c : ascii) : bool := sub_char c || in_set (B":@/?") c.
Definition value_char (c : ascii) : bool := sub_char c || in_set (B":@/?=") c.
Lemma not_char (p : ascii -> bool) c (s : bytes) : p c = false -> forallb p s = true -> ~ In c s.
Proof. intros E F I. rewrite forallb_forall in F. rewrite (F c I) in E. discriminate E. Qed.
Lemma raw_pair_no (p : bytes * bytes) c : forallb key_char (fst p) = true -> forallb value_char (snd p) = true -> key_char c = false -> value_char c = false -> c <> "="%char -> ~ In c (raw_pair p).
Proof.
  intros K V Ck Cv N I. unfold raw_pair in I. apply in_app_or in I as [I|[I|I]]; [exact (not_char _ _ _ Ck K I)|congruence|exact (not_char _ _ _ Cv V I)].
Qed.
Lemma parse_raw (p : bytes * bytes) : forallb key_char (fst p) = true -> parse_pair (raw_pair p) = andthen (decoded true (fst p)) (fun k => andthen (decoded true (snd p)) (fun v => Some (k, v))).
Proof.
  intros K. unfold parse_pair, cut_or, raw_pair. change (B"=" ++ snd p) with ("="%char :: snd p). rewrite cut_byte_app by exact (not_char key_char "="%char _ eq_refl K). rewrite !unescape_decoded.
  destruct (decoded true (fst p)), (decoded true (snd p)); reflexivity.
Qed.
Definition chars_ok (ps : params) : Prop := forall p, In p ps -> forallb key_char (fst p) = true /\ forallb value_char (snd p) = true.
Lemma parse_written ps : chars_ok ps -> parse_query (join (B"&") (map raw_pair ps)) = decoded_params ps.
Proof.
  intros C. unfold parse_query. destruct ps as [|p ps]; [reflexivity|]. change (B"&") with ["&"%char]. rewrite split_byte_join.
  - induction (p :: ps) as [|x k IH]; [reflexivity|]. cbn [map parse_pairs]. destruct (C x (or_introl eq_refl)) as [Kx Vx].
    assert (contains (raw_pair x) (B";") = false) as ->.
    { destruct (contains (raw_pair x) (B";")) eqn:E; [|reflexivity]. exfalso. apply contains_iff in E as (a & b & E). apply (raw_pair_no x ";"%char Kx Vx); try reflexivity; try discriminate. rewrite E. apply in_or_app. right. left. reflexivity. }
    assert (beqb (raw_pair x) [] = false) as -> by (destruct (beqb_spec (raw_pair x) []) as [E|]; [unfold raw_pair in E; apply app_eq_nil in E as [_ E]; discriminate E|reflexivity]).
    rewrite (parse_raw x Kx). unfold decoded_params in *. cbn [each]. rewrite IH by (intros y I; exact (C y (or_intror I))).
    destruct (decoded true (fst x)); [|reflexivity]. cbn [andthen]. destruct (decoded true (snd x)); [|reflexivity]. cbn [andthen]. match goal with |- context [each ?g k] => destruct (each g k) end; reflexivity.
  - discriminate.
  - apply Forall_forall. intros s I. apply in_map_iff in I as (y & <- & I). destruct (C y I) as [Ky Vy]. apply raw_pair_no; auto; discriminate.
Qed.
Lemma query_text_cut a ps : ~ In "?"%char a -> cut_or "?"%char (a ++ query_text ps) = (a, join (B"&") (map raw_pair ps)).
Proof.
  intros N. unfold cut_or, query_text. destruct ps as [|p ps].
  - rewrite app_nil_r. rewrite (proj2 (cut_byte_None _ _) N). reflexivity.
  - change (B"?" ++ ?x) with ("?"%char :: x). rewrite cut_byte_app by exact N. reflexivity.
Qed.
(** The parameters that are added. *)
Lemma add_keys_written add a ps ps1 : ~ In "?"%char a -> chars_ok ps -> decoded_params ps = Some ps1 ->
  add_keys add (a ++ query_text ps) = a ++ B"?" ++ encode (add ps1).
Proof. intros N C D. unfold add_keys. rewrite (query_text_cut a ps N). rewrite (parse_written ps C), D. reflexivity. Qed.
Lemma cut_encode a q : ~ In "?"%char a -> at_first "?"%char (a ++ B"?" ++ encode q) = (a, encode q).
Proof. intros N. unfold at_first. change (B"?" ++ encode q) with ("?"%char :: encode q). rewrite cut_byte_app by exact N. reflexivity. Qed.
Lemma url_read_encode a q : ~ In "?"%char a -> url_read (a ++ B"?" ++ encode q) = Some ([a], sort_pairs q).
Proof. intros N. unfold url_read. rewrite (cut_encode a q N). rewrite encode_read by discriminate. reflexivity. Qed.
Lemma has_lacks k q : has_key k q = negb (lacks k q).
Proof.
  unfold has_key, lacks, values. induction q as [|p q IH]; [reflexivity|]. cbn [existsb filter]. destruct (beqb (fst p) k); [reflexivity|]. exact IH.
Qed.
Lemma values_set k v q k' : lacks k q = true -> values k' (set_key k v q) = values k' (q ++ [(k, v)]).
Proof.
  intros L. unfold set_key. rewrite !values_app. f_equal. unfold values. f_equal. induction q as [|p q IH]; [reflexivity|].
  assert (beqb (fst p) k = false /\ lacks k q = true) as [E L'] by (unfold lacks, values in L; cbn [filter] in L; destruct (beqb (fst p) k); [discriminate L|split; [reflexivity|exact L]]).
  cbn [filter]. rewrite E. cbn [negb filter]. rewrite (IH L'). reflexivity.
Qed.
Definition adding (k v : bytes) (q : params) : params := if lacks k q then [(k, v)] else [].
Lemma values_default k v q k' : values k' (set_default k v q) = values k' (q ++ adding k v q).
Proof.
  unfold set_default, adding. rewrite has_lacks. destruct (lacks k q) eqn:L; cbn [negb]; [apply values_set; exact L|rewrite app_nil_r; reflexivity].
Qed.
Lemma lacks_values k a b : (forall k', values k' a = values k' b) -> lacks k a = lacks k b.
Proof. intros H. unfold lacks. rewrite H. reflexivity. Qed.
Lemma lacks_other k k0 v0 q : k <> k0 -> lacks k (q ++ adding k0 v0 q) = lacks k q.
Proof.
  intros N. unfold lacks. rewrite values_app. assert (values k (adding k0 v0 q) = []) as ->; [|rewrite app_nil_r; reflexivity]. unfold adding, values. destruct (lacks k0 q); [|reflexivity]. cbn [filter fst]. destruct (beqb_spec k0 k); [congruence|reflexivity].
Qed.
Lemma lacks_default k k0 v0 q : k <> k0 -> lacks k (set_default k0 v0 q) = lacks k q.
Proof. intros N. rewrite (lacks_values _ _ _ (values_default k0 v0 q)). apply lacks_other. exact N. Qed.
Lemma in_set_key p k v q : In p (set_key k v q) -> In p q \/ p = (k, v).
Proof. unfold set_key. intros I. apply in_app_or in I as [I|[I|[]]]; [left; apply filter_In in I; tauto|right; congruence]. Qed.
Lemma in_set_default p k v q : In p (set_default k v q) -> In p q \/ p = (k, v).
Proof. unfold set_default. destruct (has_key k q); [tauto|apply in_set_key]. Qed.

(** ** Prefixes *)
Lemma prefix_stops (a s q : bytes) c : ~ In c s -> has_prefix (a ++ c :: q) s = has_prefix a s.
Proof.
  intros N. apply eq_true_iff_eq. rewrite !has_prefix_iff. split; intros (r & E); [|exists (r ++ c :: q); rewrite E, <- app_assoc; reflexivity].
  revert a E. induction s as [|x s IH]; intros a E; [exists a; reflexivity|]. destruct a as [|y a]; cbn [app] in E; [injection E as -> _; destruct N; left; reflexivity|].
  injection E as -> E. destruct (IH (fun I => N (or_intror I)) a E) as (r' & ->). exists r'. reflexivity.
Qed.
Lemma prefix_query (a s : bytes) ps : ~ In "?"%char s -> has_prefix (a ++ query_text ps) s = has_prefix a s.
Proof. intros N. unfold query_text. destruct ps; [rewrite app_nil_r; reflexivity|]. apply prefix_stops. exact N. Qed.
Lemma prefix_word (u w x r : bytes) : ~ In ":"%char u -> ~ In ":"%char w ->
  has_prefix (u ++ ":"%char :: x) (w ++ ":"%char :: r) = beqb u w && has_prefix x r.
Proof.
  intros U W. apply eq_true_iff_eq. rewrite andb_true_iff, !has_prefix_iff. split.
  - intros (q & E). rewrite <- app_assoc in E. cbn [app] in E. assert (cut_byte ":"%char (u ++ ":"%char :: x) = cut_byte ":"%char (w ++ ":"%char :: r ++ q)) as C by (rewrite E; reflexivity).
    rewrite !cut_byte_app in C by assumption. injection C as -> ->. split; [destruct (beqb_spec w w); congruence|exists q; reflexivity].
  - intros (E & q & ->). destruct (beqb_spec u w) as [->|]; [|discriminate E]. exists q. rewrite <- app_assoc. reflexivity.
Qed.
Lemma trim_prefix_other s p : has_prefix s p = false -> trim_prefix s p = s.
Proof.
  intros H. unfold trim_prefix. destruct (strip_prefix p s) as [r|] eqn:E; [|reflexivity]. apply strip_prefix_Some in E. rewrite E, has_prefix_app in H. discriminate H.
Qed.

(** ** The last character of a kind *)
Lemma at_last_None c s : ~ In c s -> at_last c s = None.
Proof.
  induction s as [|x s IH]; [reflexivity|]. intros N. cbn [at_last]. rewrite IH by (intros I; apply N; right; exact I). destruct (ceqb_spec x c) as [->|]; [destruct N; left; reflexivity|reflexivity].
Qed.
Lemma at_last_app c a b : ~ In c b -> at_last c (a ++ c :: b) = Some (a, b).
Proof.
  intros N. induction a as [|x a IH]; cbn [app at_last]; [rewrite at_last_None by exact N; rewrite ceqb_refl; reflexivity|]. rewrite IH. reflexivity.
Qed.
Lemma cut_last_app c a b : ~ In c b -> cut_last c (a ++ c :: b) = Some (a, b).
Proof.
  intros N. unfold cut_last. rewrite rev_app_distr. cbn [rev]. rewrite <- app_assoc. cbn [app]. rewrite cut_byte_app by (rewrite <- in_rev; exact N). rewrite !rev_involutive. reflexivity.
Qed.
Lemma cut_last_None c s : ~ In c s -> cut_last c s = None.
Proof. intros N. unfold cut_last. rewrite (proj2 (cut_byte_None _ _)) by (rewrite <- in_rev; exact N). reflexivity. Qed.

(** ** The data source names of MySQL *)
Lemma mysql_read_back (u p h db : bytes) (q : params) :
  ~ In ":"%char u -> without (B"@/()?") h -> without (B"/?") db -> (forall k v, In (k, v) q -> forallb word_char k = true) ->
  mysql_read ((u ++ B":" ++ p ++ B"@tcp(" ++ h ++ B")/" ++ db) ++ B"?" ++ encode q) = Some ([u; p; B"tcp"; h; db], sort_pairs q).
Proof.
  intros U H D W. unfold mysql_read.
  replace ((u ++ B":" ++ p ++ B"@tcp(" ++ h ++ B")/" ++ db) ++ B"?" ++ encode q) with (((u ++ ":"%char :: p) ++ "@"%char :: B"tcp" ++ "("%char :: h ++ B")") ++ "/"%char :: db ++ B"?" ++ encode q)
    by (cbn; rewrite <- ?app_assoc; cbn; rewrite <- ?app_assoc; cbn; rewrite <- ?app_assoc; reflexivity).
  rewrite at_last_app.
  2:{ intros I. apply in_app_or in I as [I|[I|I]]; [exact (D "/"%char (or_introl eq_refl) I)|discriminate I|]. revert I. apply encode_chars; [reflexivity|discriminate|discriminate]. }
  cbn [andthen]. rewrite cut_encode by (apply D; right; left; reflexivity). rewrite encode_read by (intros _; exact W). cbn [andthen].
  rewrite at_last_app.
  2:{ intros I. apply in_app_or in I as [I|[I|I]]; [revert I; clear; cbn; intuition discriminate|discriminate I|]. apply in_app_or in I as [I|[I|[]]]; [|discriminate I]. revert I. apply H. left. reflexivity. }
  unfold at_first at 1. rewrite cut_byte_app by exact U. rewrite cut_byte_app by (clear; cbn; intuition discriminate).
  rewrite has_suffix_app. change (B")") with [")"%char]. rewrite removelast_last. reflexivity.
Qed.
Lemma mysql_settings a ps ps1 : ~ In "?"%char a -> chars_ok ps -> decoded_params ps = Some ps1 ->
  exists q, add_keys (fun q => set_default (B"parseTime") (B"true") (set_default (B"multiStatements") (B"true") (set_default (B"allowAllFiles") (B"true") q))) (a ++ query_text ps)
            = a ++ B"?" ++ encode q
    /\ (forall k, values k q = values k (ps1 ++ adding (B"allowAllFiles") (B"true") ps1 ++ adding (B"multiStatements") (B"true") ps1 ++ adding (B"parseTime") (B"true") ps1))
    /\ ((forall k v, In (k, v) ps1 -> forallb word_char k = true) -> forall k v, In (k, v) q -> forallb word_char k = true).
Proof.
  intros N C D. eexists. split; [apply add_keys_written; eassumption|]. split.
  - intros k. rewrite values_default, values_app. rewrite values_default, values_app, values_default, values_app.
    unfold adding. rewrite !lacks_default by discriminate.
    rewrite !values_app, <- !app_assoc. reflexivity.
  - intros W k v I. apply in_set_default in I as [I|E]; [|injection E as -> ->; reflexivity]. apply in_set_default in I as [I|E]; [|injection E as -> ->; reflexivity].
    apply in_set_default in I as [I|E]; [exact (W k v I)|injection E as -> ->; reflexivity].
Qed.
Lemma decoded_word s : forallb word_char s = true -> decoded true s = Some s.
Proof.
  induction s as [|c s IH]; [reflexivity|]. cbn [forallb]. intros H. apply andb_true_iff in H as [Hc Hs]. cbn [decoded]. rewrite (IH Hs). cbn [andthen].
  assert (ceqb c "%"%char = false) as -> by (revert Hc; clear; all_ascii c; vm_compute; congruence). assert (ceqb c "+"%char = false) as -> by (revert Hc; clear; all_ascii c; vm_compute; congruence). reflexivity.
Qed.
Lemma decoded_words ps ps1 : (forall k v, In (k, v) ps -> forallb word_char k = true) -> decoded_params ps = Some ps1 ->
  forall k v, In (k, v) ps1 -> forallb word_char k = true.
Proof.
  unfold decoded_params. revert ps1. induction ps as [|p ps IH]; intros ps1 W D k v I; [injection D as <-; destruct I|]. cbn [each] in D. destruct p as [k0 v0]. cbn [fst snd] in D. rewrite (decoded_word k0) in D by exact (W k0 v0 (or_introl eq_refl)). cbn [andthen] in D.
  destruct (decoded true v0) as [v1|]; [|discriminate D]. cbn [andthen] in D. match type of D with context [each ?g ps] => destruct (each g ps) as [r|] eqn:E end; [|discriminate D]. cbn [andthen] in D. injection D as <-. destruct I as [I|I].
  - injection I as <- <-. exact (W k0 v0 (or_introl eq_refl)).
  - exact (IH r (fun k v I => W k v (or_intror I)) eq_refl k v I).
Qed.

(** ** net/url *)
Lemma decoded_plain s : ~ In "%"%char s -> decoded false s = Some s.
Proof.
  induction s as [|c s IH]; [reflexivity|]. intros N. cbn [decoded]. rewrite IH by (intros I; apply N; right; exact I). destruct (ceqb_spec c "%"%char) as [->|]; [destruct N; left; reflexivity|]. cbn [andthen].
  destruct (ceqb c "+"%char); reflexivity.
Qed.
Lemma forallb_imp (p q : ascii -> bool) (s : bytes) : (forall c, p c = true -> q c = true) -> forallb p s = true -> forallb q s = true.
Proof. intros H F. rewrite forallb_forall in *. intros c I. apply H, F, I. Qed.
Lemma host_text_ok h : host_text h -> parse_host h = Some h.
Proof.
  intros (a & port & -> & A & P). unfold parse_host. assert (forallb host_char a = true) as Ha by (revert A; apply forallb_imp; intros c; all_ascii c; vm_compute; congruence).
  assert (~ In ":"%char a) as Na by exact (not_char word_char ":"%char a eq_refl A).
  assert (has_prefix (a ++ port) (B"[") = false) as ->.
  { destruct a as [|c a]; [|cbn [forallb] in A; unfold all_chars in A; cbn [forallb] in A; apply andb_true_iff in A as [A _]; revert A; clear; all_ascii c; vm_compute; congruence]. destruct P as [->|(n & -> & _)]; reflexivity. }
  destruct P as [->|(n & -> & Dn)].
  - rewrite app_nil_r, cut_last_None by exact Na. rewrite Ha. reflexivity.
  - change (B":" ++ n) with (":"%char :: n). rewrite cut_last_app by exact (not_char is_digit ":"%char n eq_refl Dn). unfold valid_port. rewrite ceqb_refl. cbn [andb]. unfold all_chars in Dn. rewrite Dn. rewrite forallb_app, Ha. cbn [andb forallb].
    rewrite (forallb_imp is_digit host_char n); [reflexivity| |exact Dn]. intros c; all_ascii c; vm_compute; congruence.
Qed.
Lemma parse_user_ok u p u1 p1 : all_chars cred_char u -> all_chars cred_char p -> decoded false u = Some u1 -> decoded false p = Some p1 ->
  parse_user (u ++ ":"%char :: p) = Some (u1, Some p1).
Proof.
  intros U P Du Dp. unfold parse_user. assert (forall c, cred_char c = true -> userinfo_char c = true) as C by (intros c; all_ascii c; vm_compute; congruence).
  rewrite forallb_app. cbn [forallb]. rewrite (forallb_imp _ _ u C U), (forallb_imp _ _ p C P). cbn [andb negb].
  replace (userinfo_char ":"%char) with true by reflexivity. cbn [andb negb].
  rewrite cut_byte_app by exact (not_char cred_char ":"%char u eq_refl U). rewrite !unescape_decoded, Du, Dp. reflexivity.
Qed.
Definition path_char (c : ascii) : bool := cred_char c || in_set (B":@") c.
Definition any_char (c : ascii) : bool := cred_char c || in_set (B":@/?=") c.
Lemma query_chars ps : chars_ok ps -> forallb any_char (query_text ps) = true.
Proof.
  intros C. unfold query_text. destruct ps as [|p ps]; [reflexivity|]. change (forallb any_char (B"?" ++ ?x)) with (forallb any_char x). apply forallb_forall. intros c I. apply join_in in I as [[<-|[]]|(x & I & J)]; [reflexivity|].
  apply in_map_iff in I as (y & <- & I). destruct (C y I) as [K V]. rewrite forallb_forall in K, V. apply in_app_or in J as [J|[<-|J]]; [apply K in J|reflexivity|apply V in J]; revert J; clear; all_ascii c; vm_compute; congruence.
Qed.
Lemma any_char_facts s : forallb any_char s = true -> ~ In "#"%char s /\ existsb control s = false.
Proof.
  intros F. split; [exact (not_char any_char "#"%char s eq_refl F)|]. destruct (existsb control s) eqn:E; [|reflexivity]. apply existsb_exists in E as (c & I & E). rewrite forallb_forall in F. specialize (F c I). revert E F. clear. all_ascii c; vm_compute; congruence.
Qed.
Lemma parse_url_ok u p h db u1 p1 db1 ps :
  all_chars cred_char u -> all_chars cred_char p -> host_text h -> all_chars path_char db -> chars_ok ps ->
  decoded false u = Some u1 -> decoded false p = Some p1 -> decoded false db = Some db1 ->
  parse_url ((u ++ B":" ++ p ++ B"@" ++ h ++ B"/" ++ db) ++ query_text ps) = Some (Url (Some (u1, Some p1)) h ("/"%char :: db1) (join (B"&") (map raw_pair ps))).
Proof.
  intros U P H D C Du Dp Dd. unfold parse_url. 
  assert (forallb any_char h = true) as Hh.
  { destruct H as (a & port & -> & A & Q). rewrite forallb_app. rewrite (forallb_imp word_char any_char a) by (auto; intros c; all_ascii c; vm_compute; congruence). destruct Q as [->|(n & -> & N)]; [reflexivity|]. cbn [andb].
    change (forallb any_char (B":" ++ n)) with (forallb any_char n). apply (forallb_imp is_digit any_char n); [|exact N]. intros c; all_ascii c; vm_compute; congruence. }
  assert (forall c, in_set (B"@/?#") c = true -> ~ In c h) as Nh.
  { intros c E I. destruct H as (a & port & -> & A & Q). apply in_app_or in I as [I|I]; [revert E; clear - A I; unfold all_chars in A; rewrite forallb_forall in A; specialize (A c I); revert A; all_ascii c; vm_compute; congruence|].
    destruct Q as [->|(n & -> & N)]; [destruct I|]. destruct I as [<-|I]; [discriminate E|]. unfold all_chars in N. rewrite forallb_forall in N. specialize (N c I). revert E N. clear. all_ascii c; vm_compute; congruence. }
  assert (forallb any_char ((u ++ B":" ++ p ++ B"@" ++ h ++ B"/" ++ db) ++ query_text ps) = true) as F.
  { assert (forall c, cred_char c = true -> any_char c = true) as Cc by (intros c; all_ascii c; vm_compute; congruence). assert (forall c, path_char c = true -> any_char c = true) as Pc by (intros c; all_ascii c; vm_compute; congruence).
    rewrite !forallb_app, (forallb_imp _ _ u Cc U), (forallb_imp _ _ p Cc P), (forallb_imp _ _ db Pc D), Hh, (query_chars ps C). reflexivity. }
  apply any_char_facts in F as [F1 F2]. unfold cut_or at 1. rewrite (proj2 (cut_byte_None _ _) F1). rewrite F2. cbn [unescape].
  rewrite query_text_cut.
  2:{ intros I. repeat (apply in_app_or in I as [I|I]); try (revert I; first [exact (not_char cred_char "?"%char _ eq_refl U)|exact (not_char cred_char "?"%char _ eq_refl P)|exact (not_char path_char "?"%char _ eq_refl D)|exact (Nh "?"%char eq_refl)|clear; cbn; intuition discriminate]). }
  replace (u ++ B":" ++ p ++ B"@" ++ h ++ B"/" ++ db) with (((u ++ ":"%char :: p) ++ "@"%char :: h) ++ "/"%char :: db) by (rewrite <- !app_assoc; reflexivity).
  rewrite cut_byte_app.
  2:{ intros I. apply in_app_or in I as [I|[I|I]]; [|discriminate I|exact (Nh "/"%char eq_refl I)]. apply in_app_or in I as [I|[I|I]]; [exact (not_char cred_char "/"%char _ eq_refl U I)|discriminate I|exact (not_char cred_char "/"%char _ eq_refl P I)]. }
  rewrite cut_last_app by exact (Nh "@"%char eq_refl). rewrite (parse_user_ok u p u1 p1 U P Du Dp), (host_text_ok h H).
  rewrite unescape_decoded. change (decoded false ("/"%char :: db)) with (andthen (decoded false db) (fun r => Some ("/"%char :: r))). rewrite Dd. reflexivity.
Qed.

(** ** The forms *)
Lemma ok_chars d ps : params_ok d ps -> chars_ok ps.
Proof. intros (H & _) [k v] I. exact (H k v I). Qed.
Lemma not_file fs s : has_prefix s (B"file:") = false -> normalize_dsn fs s = known s.
Proof. intros H. unfold normalize_dsn. rewrite H. reflexivity. Qed.
Lemma pieces_without bad (l : list bytes) : Forall (without bad) l -> without bad (concat l).
Proof.
  intros H c I J. apply in_concat in J as (x & K & J). rewrite Forall_forall in H. exact (H x K c I J).
Qed.
Lemma without_in bad s c : without bad s -> in_set bad c = true -> ~ In c s.
Proof. intros W E. apply W. apply existsb_exists in E as (x & I & E). destruct (ceqb_spec c x) as [->|]; [exact I|discriminate E]. Qed.
Lemma without_app (c : ascii) (a b : bytes) : ~ In c a -> ~ In c b -> ~ In c (a ++ b).
Proof. intros H1 H2 I. apply in_app_or in I as [I|I]; auto. Qed.
Lemma without_text c s : existsb (ceqb c) s = false -> ~ In c s.
Proof. intros E I. assert (existsb (ceqb c) s = true) as X by (apply existsb_exists; exists c; split; [exact I|apply ceqb_refl]). congruence. Qed.
Ltac no_char := repeat apply without_app; first [apply without_text; reflexivity|assumption|match goal with W : without ?b ?s |- ~ In ?c ?s => exact (without_in b s c W eq_refl) end|apply (not_char cred_char); [reflexivity|assumption]|idtac].

Lemma sqlite_read p ps ps1 : ~ In "?"%char p -> chars_ok ps -> decoded_params ps = Some ps1 -> has_prefix p (B"//") = false ->
  exists ps2, url_read (add_keys (fun q => if negb (has_key (B"_foreign_keys") q) && negb (has_key (B"_fk") q) then set_key (B"_foreign_keys") (B"true") q else q) (p ++ query_text ps)) = Some ([p], ps2)
    /\ forall k, values k ps2 = values k (ps1 ++ (if lacks (B"_fk") ps1 then adding (B"_foreign_keys") (B"true") ps1 else [])).
Proof.
  intros N C D Hp. eexists. split; [erewrite add_keys_written by eassumption; apply url_read_encode; exact N|]. intros k. rewrite values_sort, !has_lacks, !negb_involutive. unfold adding.
  destruct (lacks (B"_foreign_keys") ps1) eqn:L1, (lacks (B"_fk") ps1) eqn:L2; cbn [andb]; rewrite ?app_nil_r; try reflexivity. apply values_set. exact L1.
Qed.
Lemma sqlite_path fs p ps : form_ok (SqlitePath p) ps -> params_ok SQLite ps -> clear_form (SqlitePath p) -> connects (normalize_dsn fs (url_text (SqlitePath p) ps)) (SqlitePath p) ps.
Proof.
  intros (Q & NS & (e & Ie & Se) & T1 & T2) P K. cbn [clear_form] in K. assert (~ In "?"%char p) as N by (apply Q; left; reflexivity). destruct P as (C0 & _ & D0). assert (chars_ok ps) as C by (intros [k v] I; exact (C0 k v I)).
  destruct (decoded_params ps) as [ps1|] eqn:D; [|congruence].
  assert (forall s, In s [B"file:"; B"sqlite:"; B"sqlite3:"; B"postgres://"; B"mysql://"; B"sqlserver://"; B"oracle://"] -> has_prefix (p ++ query_text ps) s = false) as NP.
  { intros s I. rewrite prefix_query; [exact (NS s I)|]. repeat destruct I as [<-|I]; try (apply without_text; reflexivity). destruct I. }
  destruct (sqlite_read p ps ps1 N C D K) as (ps2 & R & V).
  unfold url_text in *. cbn [main_text] in *. rewrite not_file by (apply NP; left; reflexivity). unfold known.
  assert (dialect_of (p ++ query_text ps) = Some SQLite) as ->.
  { unfold dialect_of. rewrite !NP by (cbn; tauto). rewrite T1, T2. cbn [orb]. rewrite query_text_cut by exact N. cbn [fst]. unfold sqlite_suffix. repeat destruct Ie as [<-|Ie]; try destruct Ie; rewrite Se, ?orb_true_r; reflexivity. }
  exists (sqlite_dsn (p ++ query_text ps)), [p], ps1. do 3 eexists. split; [reflexivity|]. split; [reflexivity|]. split; [exact D|]. split; [reflexivity|]. cbn [form_dialect driver_reads]. unfold sqlite_dsn.
  rewrite (trim_prefix_other (p ++ query_text ps) (B"sqlite:")) by (apply NP; cbn; tauto). rewrite (trim_prefix_other (p ++ query_text ps) (B"//")) by (rewrite prefix_query by (apply without_text; reflexivity); exact K).
  split; [exact R|]. split; [reflexivity|]. intros k. exact (V k).
Qed.
Lemma sqlite_url fs p ps : form_ok (SqliteUrl false p) ps -> params_ok SQLite ps -> connects (normalize_dsn fs (url_text (SqliteUrl false p) ps)) (SqliteUrl false p) ps.
Proof.
  intros (Q & K) P. assert (~ In "?"%char p) as N by (apply Q; left; reflexivity). destruct P as (C0 & _ & D0). assert (chars_ok ps) as C by (intros [k v] I; exact (C0 k v I)).
  destruct (decoded_params ps) as [ps1|] eqn:D; [|congruence]. destruct (sqlite_read p ps ps1 N C D K) as (ps2 & R & V).
  exists (sqlite_dsn (url_text (SqliteUrl false p) ps)), [p], ps1. do 3 eexists. split; [reflexivity|]. split; [reflexivity|]. split; [exact D|]. split; [reflexivity|]. cbn [form_dialect driver_reads]. unfold sqlite_dsn.
  change (url_text (SqliteUrl false p) ps) with (B"sqlite:" ++ (p ++ query_text ps)). rewrite trim_prefix_app. rewrite (trim_prefix_other (p ++ query_text ps) (B"//")) by (rewrite prefix_query by (apply without_text; reflexivity); exact K).
  split; [exact R|]. split; [reflexivity|]. intros k. exact (V k).
Qed.
Lemma postgres_url fs r ps : form_ok (PostgresUrl r) ps -> params_ok Postgres ps -> connects (normalize_dsn fs (url_text (PostgresUrl r) ps)) (PostgresUrl r) ps.
Proof.
  intros Q P. cbn [form_ok] in Q. assert (~ In "?"%char (B"postgres://" ++ r)) as N by no_char. destruct P as (C0 & _ & D0). assert (chars_ok ps) as C by (intros [k v] I; exact (C0 k v I)).
  destruct (decoded_params ps) as [ps1|] eqn:D; [|congruence].
  exists (postgres_dsn (url_text (PostgresUrl r) ps)), [B"postgres://" ++ r], ps1. do 3 eexists. split; [reflexivity|]. split; [reflexivity|]. split; [exact D|]. split; [reflexivity|]. cbn [form_dialect driver_reads]. unfold postgres_dsn, url_text. cbn [main_text].
  rewrite (add_keys_written _ _ ps ps1 N C D), url_read_encode by exact N. split; [reflexivity|]. split; [reflexivity|]. intros k. rewrite values_sort. apply values_default.
Qed.
Lemma mysql_connects f u p h db ps ps1 dsn :
  form_dialect f = MySQL -> target f = Some [u; p; B"tcp"; h; db] -> decoded_params ps = Some ps1 -> params_ok MySQL ps ->
  dsn = add_keys (fun q => set_default (B"parseTime") (B"true") (set_default (B"multiStatements") (B"true") (set_default (B"allowAllFiles") (B"true") q)))
          ((u ++ B":" ++ p ++ B"@tcp(" ++ h ++ B")/" ++ db) ++ query_text ps) ->
  ~ In ":"%char u -> ~ In "?"%char u -> ~ In "?"%char p -> without (B"@/()?") h -> without (B"/?") db ->
  connects (Some (MySQL, dsn)) f ps.
Proof.
  intros F T D P -> U U2 P2 H Db. assert (chars_ok ps) as C by exact (ok_chars _ _ P). destruct P as (_ & W & _).
  destruct (mysql_settings (u ++ B":" ++ p ++ B"@tcp(" ++ h ++ B")/" ++ db) ps ps1) as (q & -> & V & Wq); [no_char|exact C|exact D|].
  specialize (Wq (decoded_words ps ps1 (W eq_refl) D)).
  unfold connects. rewrite F, T, D. do 6 eexists. split; [reflexivity|]. split; [reflexivity|]. split; [reflexivity|]. unfold settings. rewrite F. split; [reflexivity|]. cbn [driver_reads].
  rewrite (mysql_read_back u p h db q U H Db Wq). split; [reflexivity|]. split; [reflexivity|]. intros k. rewrite values_sort. apply V.
Qed.
Lemma mysql_plain fs u p h db ps : form_ok (MysqlPlain u p h db) ps -> params_ok MySQL ps -> clear_form (MysqlPlain u p h db) ->
  connects (normalize_dsn fs (url_text (MysqlPlain u p h db) ps)) (MysqlPlain u p h db) ps.
Proof.
  intros (U0 & U & H & Db) P (Qu & Qp & Nu & Ns). assert (~ In ":"%char u) as Cu by (apply U; left; reflexivity). destruct (decoded_params ps) as [ps1|] eqn:D; [|destruct P as (_ & _ & []); exact D].
  set (x := p ++ B"@tcp(" ++ h ++ B")/" ++ db ++ query_text ps).
  assert (url_text (MysqlPlain u p h db) ps = u ++ ":"%char :: x) as E by (unfold url_text, x; cbn [main_text]; rewrite <- !app_assoc; reflexivity).
  assert (forall w, In w [B"file"; B"sqlite"; B"sqlite3"] -> has_prefix (u ++ ":"%char :: x) (w ++ [":"%char]) = false) as A1.
  { intros w I. rewrite prefix_word; [|exact Cu|repeat destruct I as [<-|I]; try (apply without_text; reflexivity); destruct I]. destruct (beqb_spec u w) as [->|]; [destruct (Nu I)|reflexivity]. }
  assert (forall w, In w [B"postgres"; B"mysql"; B"sqlserver"; B"oracle"] -> has_prefix (u ++ ":"%char :: x) (w ++ B"://") = false) as A2.
  { intros w I. change (B"://") with (":"%char :: B"//"). rewrite prefix_word; [|exact Cu|repeat destruct I as [<-|I]; try (apply without_text; reflexivity); destruct I]. destruct (beqb_spec u w) as [->|]; [|reflexivity]. cbn [andb].
    unfold x. change (B"@tcp(" ++ ?y) with ("@"%char :: B"tcp(" ++ y). rewrite prefix_stops by (apply without_text; reflexivity). exact (Ns I). }
  rewrite not_file by (rewrite E; apply (A1 (B"file")); left; reflexivity). unfold known.
  assert (dialect_of (url_text (MysqlPlain u p h db) ps) = Some MySQL) as ->.
  { unfold dialect_of. rewrite E. change (B"sqlite:") with (B"sqlite" ++ [":"%char]). change (B"sqlite3:") with (B"sqlite3" ++ [":"%char]).
    change (B"postgres://") with (B"postgres" ++ B"://"). change (B"mysql://") with (B"mysql" ++ B"://"). change (B"sqlserver://") with (B"sqlserver" ++ B"://"). change (B"oracle://") with (B"oracle" ++ B"://").
    rewrite (A1 (B"sqlite")), (A1 (B"sqlite3")) by (cbn; tauto). cbn [orb]. rewrite (A2 (B"postgres")), (A2 (B"mysql")), (A2 (B"sqlserver")), (A2 (B"oracle")) by (cbn; tauto).
    replace (contains (u ++ ":"%char :: x) (B"@tcp(")) with true; [reflexivity|]. symmetry. apply contains_iff. exists (u ++ ":"%char :: p), (h ++ B")/" ++ db ++ query_text ps). unfold x. rewrite <- !app_assoc. reflexivity. }
  cbn [preprocess]. eapply (mysql_connects _ u p h db ps ps1); try reflexivity; try assumption.
  - unfold mysql_dsn. rewrite E. destruct (strip_prefix (B"mysql://") (u ++ ":"%char :: x)) as [r|] eqn:S.
    + apply strip_prefix_Some in S. assert (has_prefix (u ++ ":"%char :: x) (B"mysql" ++ B"://") = true) as HP by (rewrite S; apply has_prefix_app). rewrite A2 in HP by (cbn; tauto). discriminate HP.
    + rewrite <- E. reflexivity.
  - no_char.
  - no_char.
Qed.
Lemma mysql_url_form fs u p h db ps : form_ok (MysqlUrl u p h db) ps -> params_ok MySQL ps -> clear_form (MysqlUrl u p h db) ->
  connects (normalize_dsn fs (url_text (MysqlUrl u p h db) ps)) (MysqlUrl u p h db) ps.
Proof.
  intros (U & Pw & H & H0 & Db & T) P K. destruct (decoded_params ps) as [ps1|] eqn:D; [|destruct P as (_ & _ & []); exact D].
  cbn [clear_form target] in K. cbn [target] in T. destruct (decoded false u) as [u1|] eqn:Du; [|destruct T; reflexivity]. cbn [andthen] in *. destruct (decoded false p) as [p1|] eqn:Dp; [|destruct T; reflexivity]. cbn [andthen] in *. destruct (decoded false db) as [db1|] eqn:Dd; [|destruct T; reflexivity]. cbn [andthen] in *.
  destruct K as (Ku & Kp & Kd).
  change (normalize_dsn fs (url_text (MysqlUrl u p h db) ps)) with (Some (MySQL, mysql_dsn (url_text (MysqlUrl u p h db) ps))).
  assert (without (B"@/()?") h) as Wh.
  { intros c I J. destruct H as (a & port & -> & A & Q). apply in_app_or in J as [J|J]; [unfold all_chars in A; rewrite forallb_forall in A; specialize (A c J); revert A; clear - I; repeat destruct I as [<-|I]; try discriminate; destruct I|].
    destruct Q as [->|(n & -> & N)]; [destruct J|]. destruct J as [<-|J]; [revert I; clear; cbn; intuition discriminate|]. unfold all_chars in N. rewrite forallb_forall in N. specialize (N c J). revert N. clear - I. repeat destruct I as [<-|I]; try discriminate. destruct I. }
  eapply (mysql_connects _ u1 p1 h db1 ps ps1); try reflexivity; try assumption.
  - cbn [target]. rewrite Du, Dp, Dd. reflexivity.
  - unfold mysql_dsn. change (url_text (MysqlUrl u p h db) ps) with (B"mysql://" ++ ((u ++ B":" ++ p ++ B"@" ++ h ++ B"/" ++ db) ++ query_text ps)). rewrite strip_prefix_app.
    rewrite (parse_url_ok u p h db u1 p1 db1 ps U Pw H Db (ok_chars _ _ P) Du Dp Dd). f_equal. unfold mysql_url. cbn [u_user u_host u_path u_query].
    destruct h as [|h0 h]; [congruence|]. change ("/"%char :: db1) with (B"/" ++ db1). rewrite trim_prefix_app.
    destruct (u1 ++ B":" ++ p1) eqn:N; [apply app_eq_nil in N as [_ N]; discriminate N|]. rewrite <- N.
    assert (match join (B"&") (map raw_pair ps) with [] => [] | q => B"?" ++ q end = query_text ps) as ->.
    { destruct ps as [|p0 ps]; [reflexivity|]. unfold query_text. destruct (join (B"&") (map raw_pair (p0 :: ps))) eqn:J; [|rewrite <- J; reflexivity]. exfalso. revert J. clear. destruct p0 as [k v]. destruct ps; cbn [map join]; unfold raw_pair; intros E; repeat (apply app_eq_nil in E as [E E2]; try discriminate E2). all: apply app_eq_nil in E; destruct E as [_ E]; discriminate E. }
    rewrite <- !app_assoc. reflexivity.
  - no_char.
  - no_char.
  - no_char.
Qed.
Lemma cut_or_app c a r : ~ In c a -> cut_or c (a ++ r) = (a ++ fst (cut_or c r), snd (cut_or c r)).
Proof.
  intros N. unfold cut_or. destruct (cut_byte c r) as [[x y]|] eqn:E.
  - apply cut_byte_Some in E as [-> Nx]. rewrite app_assoc. rewrite cut_byte_app by (apply without_app; assumption). reflexivity.
  - apply cut_byte_None in E. rewrite (proj2 (cut_byte_None _ _)) by (apply without_app; assumption). reflexivity.
Qed.
Lemma tcp_refused u p h port r : without (B"/?#") u -> without (B"/?#") p -> without (B"@/()?#") h -> without (B":@/()?#") port ->
  parse_url ((u ++ B":" ++ p ++ B"@tcp(" ++ h ++ B":" ++ port ++ B")/") ++ r) = None.
Proof.
  intros U P H Q. unfold parse_url. rewrite cut_or_app by no_char. destruct (existsb control _); [reflexivity|]. destruct (unescape false _); [|reflexivity].
  rewrite cut_or_app by no_char. generalize (fst (cut_or "?"%char (fst (cut_or "#"%char r)))) as x. intros x. generalize (snd (cut_or "?"%char (fst (cut_or "#"%char r)))) as y. intros y.
  replace ((u ++ B":" ++ p ++ B"@tcp(" ++ h ++ B":" ++ port ++ B")/") ++ x) with (((u ++ B":" ++ p) ++ "@"%char :: (B"tcp(" ++ h) ++ ":"%char :: (port ++ B")")) ++ "/"%char :: x)
    by (rewrite <- ?app_assoc; cbn [app]; rewrite <- ?app_assoc; cbn [app]; rewrite <- ?app_assoc; reflexivity).
  rewrite cut_byte_app.
  2:{ apply without_app; [no_char|]. change ("@"%char :: ?z) with (B"@" ++ z). change (":"%char :: ?z) with (B":" ++ z). no_char. }
  rewrite cut_last_app.
  2:{ change (":"%char :: ?z) with (B":" ++ z). no_char. }
  assert (parse_host ((B"tcp(" ++ h) ++ ":"%char :: (port ++ B")")) = None) as ->; [|destruct (parse_user (u ++ B":" ++ p)); reflexivity].
  unfold parse_host. change (has_prefix ((B"tcp(" ++ h) ++ ":"%char :: port ++ B")") (B"[")) with false. cbv iota. rewrite cut_last_app by no_char. unfold valid_port. rewrite forallb_app. change (forallb is_digit (B")")) with false. rewrite andb_false_r, andb_false_r. reflexivity.
Qed.
Lemma mysql_tcp_url fs u p h port db ps : form_ok (MysqlTcpUrl u p h port db) ps -> params_ok MySQL ps -> clear_form (MysqlTcpUrl u p h port db) ->
  connects (normalize_dsn fs (url_text (MysqlTcpUrl u p h port db) ps)) (MysqlTcpUrl u p h port db) ps.
Proof.
  intros (U & H & Po & Db) P (Ku & Kp). destruct (decoded_params ps) as [ps1|] eqn:D; [|destruct P as (_ & _ & []); exact D].
  change (normalize_dsn fs (url_text (MysqlTcpUrl u p h port db) ps)) with (Some (MySQL, mysql_dsn (url_text (MysqlTcpUrl u p h port db) ps))).
  eapply (mysql_connects _ u p (h ++ B":" ++ port) db ps ps1); try reflexivity; try assumption; try no_char.
  - unfold mysql_dsn. change (url_text (MysqlTcpUrl u p h port db) ps) with (B"mysql://" ++ ((u ++ B":" ++ p ++ B"@tcp(" ++ h ++ B":" ++ port ++ B")/" ++ db) ++ query_text ps)). rewrite strip_prefix_app.
    replace ((u ++ B":" ++ p ++ B"@tcp(" ++ h ++ B":" ++ port ++ B")/" ++ db) ++ query_text ps) with ((u ++ B":" ++ p ++ B"@tcp(" ++ h ++ B":" ++ port ++ B")/") ++ db ++ query_text ps) by (rewrite <- !app_assoc; reflexivity).
    rewrite tcp_refused by assumption. f_equal. rewrite <- !app_assoc. reflexivity.
  - intros c I. repeat apply without_app; [apply H|revert I; clear; cbn; intros [<-|[<-|[<-|[<-|[<-|[]]]]]]; intuition discriminate|apply Po]; revert I; clear; cbn; tauto.
Qed.
Lemma read_written ps ps1 : chars_ok ps -> decoded_params ps = Some ps1 -> params_of false (join (B"&") (map raw_pair ps)) = Some ps1.
Proof.
  intros C D. unfold params_of. destruct ps as [|p ps]; [exact D|]. change (B"&") with ["&"%char]. rewrite split_byte_join.
  - revert ps1 C D. unfold decoded_params. induction (p :: ps) as [|x k IH]; intros ps1 C D; [exact D|]. cbn [map filter each] in *. destruct (C x (or_introl eq_refl)) as [Kx Vx].
    destruct (raw_pair x) eqn:E; [unfold raw_pair in E; apply app_eq_nil in E as [_ E]; discriminate E|]. rewrite <- E. cbn [each].
    assert (param_of false (raw_pair x) = andthen (decoded true (fst x)) (fun k => andthen (decoded true (snd x)) (fun v => Some (k, v)))) as ->.
    { unfold param_of, at_first, raw_pair. change (B"=" ++ snd x) with ("="%char :: snd x). rewrite cut_byte_app by exact (not_char key_char "="%char _ eq_refl Kx). reflexivity. }
    destruct (decoded true (fst x)); [|discriminate D]. cbn [andthen] in *. destruct (decoded true (snd x)); [|discriminate D]. cbn [andthen] in *.
    match type of D with context [each ?g k] => destruct (each g k) as [r|] eqn:Er end; [|discriminate D]. rewrite (IH r (fun y I => C y (or_intror I)) eq_refl). exact D.
  - discriminate.
  - apply Forall_forall. intros s I. apply in_map_iff in I as (y & <- & I). destruct (C y I) as [Ky Vy]. apply raw_pair_no; auto; discriminate.
Qed.
Lemma url_read_written a ps ps1 : ~ In "?"%char a -> chars_ok ps -> decoded_params ps = Some ps1 -> url_read (a ++ query_text ps) = Some ([a], ps1).
Proof.
  intros N C D. unfold url_read. change (at_first "?"%char (a ++ query_text ps)) with (cut_or "?"%char (a ++ query_text ps)). rewrite query_text_cut by exact N. rewrite (read_written ps ps1 C D). reflexivity.
Qed.
Lemma sqlserver_url fs r ps : form_ok (SqlserverUrl r) ps -> params_ok SQLServer ps -> connects (normalize_dsn fs (url_text (SqlserverUrl r) ps)) (SqlserverUrl r) ps.
Proof.
  intros Q P. cbn [form_ok] in Q. destruct (decoded_params ps) as [ps1|] eqn:D; [|destruct P as (_ & _ & []); exact D]. pose proof (ok_chars _ _ P) as C.
  exists (sqlserver_dsn (url_text (SqlserverUrl r) ps)), [B"sqlserver://" ++ r], ps1. do 3 eexists. split; [reflexivity|]. split; [reflexivity|]. split; [exact D|]. split; [reflexivity|]. cbn [form_dialect driver_reads].
  assert (sqlserver_dsn (url_text (SqlserverUrl r) ps) = (B"sqlserver://" ++ r) ++ query_text ps) as ->.
  { unfold sqlserver_dsn. change (url_text (SqlserverUrl r) ps) with (B"sqlserver://" ++ (r ++ query_text ps)). rewrite trim_prefix_app. destruct (parse_url (r ++ query_text ps)) as [u|] eqn:E; [|reflexivity].
    enough (u_path u = []) as -> by reflexivity. unfold parse_url in E. rewrite cut_or_app in E by no_char. pose proof (any_char_facts _ (query_chars ps C)) as [F1 _]. assert (cut_or "#"%char (query_text ps) = (query_text ps, [])) as F2 by (unfold cut_or; rewrite (proj2 (cut_byte_None _ _) F1); reflexivity). rewrite F2 in E. cbn [fst snd] in E.
    destruct (existsb control _); [discriminate E|]. cbn [unescape] in E. rewrite query_text_cut in E by no_char. rewrite (proj2 (cut_byte_None "/"%char r)) in E by no_char. cbn [unescape] in E.
    match type of E with context [match ?x with Some _ => _ | None => None end] => destruct x as [[uu hh]|]; [|discriminate E] end. injection E as <-. reflexivity. }
  rewrite url_read_written with (ps1 := ps1); [|no_char|exact C|exact D]. split; [reflexivity|]. split; [reflexivity|]. intros k. rewrite app_nil_r. reflexivity.
Qed.
Lemma sqlserver_path fs u p h db ps : form_ok (SqlserverPath u p h db) ps -> params_ok SQLServer ps -> clear_form (SqlserverPath u p h db) ->
  connects (normalize_dsn fs (url_text (SqlserverPath u p h db) ps)) (SqlserverPath u p h db) ps.
Proof.
  intros (U & Pw & H & Db & Tu & Tp & Td & L) P (K1 & K2). destruct (decoded_params ps) as [ps1|] eqn:D; [|destruct P as (_ & _ & []); exact D]. pose proof (ok_chars _ _ P) as C.
  specialize (L K1 ps1 eq_refl). destruct (decoded false u) as [u1|] eqn:Du; [|congruence]. destruct (decoded false p) as [p1|] eqn:Dp; [|congruence]. pose proof (decoded_plain db K2) as Dd.
  assert (~ In "?"%char h) as Nh.
  { intros J. destruct H as (a & port & -> & A & Q). apply in_app_or in J as [J|J]; [exact (not_char word_char "?"%char a eq_refl A J)|]. destruct Q as [->|(n & -> & N)]; [destruct J|]. destruct J as [J|J]; [discriminate J|]. exact (not_char is_digit "?"%char n eq_refl N J). }
  exists (sqlserver_dsn (url_text (SqlserverPath u p h db) ps)), [B"sqlserver://" ++ u ++ B":" ++ p ++ B"@" ++ h], ps1, [(B"database", db)]. do 2 eexists. split; [reflexivity|]. split; [reflexivity|]. split; [exact D|].
  split; [unfold settings; cbn [form_dialect]; destruct db; [congruence|]; rewrite Dd; reflexivity|]. cbn [form_dialect driver_reads].
  assert (sqlserver_dsn (url_text (SqlserverPath u p h db) ps) = (B"sqlserver://" ++ u ++ B":" ++ p ++ B"@" ++ h) ++ B"?" ++ encode (set_key (B"database") db ps1)) as ->.
  { unfold sqlserver_dsn. change (url_text (SqlserverPath u p h db) ps) with (B"sqlserver://" ++ ((u ++ B":" ++ p ++ B"@" ++ h ++ B"/" ++ db) ++ query_text ps)). rewrite trim_prefix_app.
    rewrite (parse_url_ok u p h db u1 p1 db ps U Pw H Db C Du Dp Dd). cbn [u_path]. rewrite app_assoc, query_text_cut.
    2:{ no_char. exact (not_char path_char "?"%char db eq_refl Db). }
    rewrite (parse_written ps C), D. f_equal. change (B"/" ++ db) with ("/"%char :: db).
    replace (B"sqlserver://" ++ u ++ B":" ++ p ++ B"@" ++ h ++ "/"%char :: db) with ((B"sqlserver://" ++ u ++ B":" ++ p ++ B"@" ++ h) ++ "/"%char :: db) by (rewrite <- !app_assoc; reflexivity). apply trim_suffix_app. }
  rewrite url_read_encode by no_char. split; [reflexivity|]. split; [reflexivity|]. intros k. rewrite values_sort. apply values_set. exact L.
Qed.

(** ** Files *)
Lemma spaces_left a s : forallb is_space a = true -> trim_left (a ++ s) = trim_left s.
Proof. induction a as [|c a IH]; [reflexivity|]. cbn [forallb app trim_left]. intros H. apply andb_true_iff in H as [-> H]. exact (IH H). Qed.
Lemma clean_left s : (forall c r, s = c :: r -> is_space c = false) -> trim_left s = s.
Proof. intros H. destruct s as [|c s]; [reflexivity|]. cbn [trim_left]. rewrite (H c s eq_refl). reflexivity. Qed.
Lemma trim_around a s b : forallb is_space a = true -> forallb is_space b = true -> solid s -> trim_space (a ++ s ++ b) = s.
Proof.
  intros A B0 [S1 S2]. unfold trim_space, trim_right. rewrite spaces_left by exact A.
  assert (trim_left (s ++ b) = s ++ b \/ s = []) as [-> | ->].
  { destruct s as [|c s]; [right; reflexivity|left]. cbn [app trim_left]. rewrite (S1 c s eq_refl). reflexivity. }
  - rewrite rev_app_distr, spaces_left.
    + rewrite clean_left; [apply rev_involutive|]. intros c r E. apply (S2 (rev r) c). rewrite <- (rev_involutive s), E. reflexivity.
    + rewrite forallb_forall in *. intros c I. apply B0. apply in_rev. exact I.
  - cbn [app]. assert (trim_left b = []) as ->; [|reflexivity]. rewrite <- (app_nil_r b), spaces_left by exact B0. reflexivity.
Qed.
Lemma no_file f ps : form_ok f ps -> clear_form f -> has_prefix (url_text f ps) (B"file:") = false.
Proof.
  destruct f; intros F K; unfold url_text; cbn [main_text]; try reflexivity.
  - rewrite prefix_query by (apply without_text; reflexivity). destruct F as (_ & N & _). apply N. left. reflexivity.
  - destruct F as (_ & U & _). destruct K as (_ & _ & N & _). rewrite <- !app_assoc. change (B":" ++ ?z) with (":"%char :: z). change (B"file:") with (B"file" ++ [":"%char]).
    rewrite prefix_word by first [apply without_text; reflexivity|apply U; left; reflexivity]. destruct (beqb_spec user (B"file")) as [->|]; [destruct N; left; reflexivity|reflexivity].
Qed.
