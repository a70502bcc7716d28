(** Facts about the queries for the data of a dump. *)
From Verif Require Import GoStr GoStrFacts ModelSq SpecSql SqFacts SpecInsert SpecTokens TokenFacts TokenReads ModelCatalog ModelDdl ModelDiff ModelSubset SpecSubset ModelSubsetText SpecSubsetText
  SubsetTextFacts SubsetTextQuery SubsetTextRows ModelDumpData SpecDumpData.
From Coq Require Import Lia Permutation.

Definition shown (current : bytes) (t : table) : tid :=
  (if negb (is_empty (tb_schema t)) && negb (beqb (tb_schema t) current) then tb_schema t else [], tb_name t).
Definition key_of (t : table) : list bytes := match data_key t with Some k => k | None => [] end.
(** The names are read as they are meant; there is a column to be dumped, or it is not missed; a primary key has columns. *)
Record readable (d : dialect) (t : table) : Prop := Readable {
  rd_schema : tb_schema t <> [] -> good d (tb_schema t);
  rd_name : good d (tb_name t);
  rd_columns : forall c, In c (data_columns t) -> good d c;
  rd_some : data_columns t <> [] \/ d = Postgres;
  rd_key : forall k, data_key t = Some k -> k <> [] /\ forall c, In c k -> good d c }.
Lemma query_text_eq d current t : data_query d current t = B"SELECT " ++ columns_text d (data_columns t) ++ B" FROM " ++ full_name d (shown current t)
  ++ match data_key t with Some k => B" ORDER BY " ++ columns_text d k | None => [] end.
Proof.
  unfold data_query, full_name, shown. cbn [fst snd]. do 3 f_equal. rewrite <- app_assoc. f_equal.
  destruct (tb_schema t) as [|a s] eqn:E; [reflexivity|]. cbn [is_empty negb andb]. destruct (beqb (a :: s) current); reflexivity.
Qed.
Lemma shown_good d current t : readable d t -> good_tid d (shown current t).
Proof.
  intros R. split; [|exact (rd_name d t R)]. unfold shown. cbn [fst]. destruct (_ && _) eqn:E; [|congruence]. intros _. apply (rd_schema d t R).
  intros Z. rewrite Z in E. discriminate E.
Qed.
Lemma data_query_read d current t : readable d t -> read_select d (data_query d current t) = Some (Select (data_columns t) (shown current t) (key_of t)).
Proof.
  intros R. rewrite query_text_eq. pose proof (shown_good d current t R) as G.
  set (tail := match data_key t with Some k => B" ORDER BY " ++ columns_text d k | None => [] end).
  assert (T : exists t3, lexed d tail t3 [] /\ nodot t3 /\
     (match t3 with [] => Some (Select (data_columns t) (shown current t) [])
      | _ => let? r := kw (B"order") t3 in let? r := kw (B"by") r in let? (o, r) := names d r in match r with [] => Some (Select (data_columns t) (shown current t) o) | _ => None end end)
     = Some (Select (data_columns t) (shown current t) (key_of t))).
  { unfold tail, key_of. destruct (data_key t) as [k|] eqn:K.
    - destruct (columns_text_read d k (rd_key d t R k K) []) as (ts & L & P); [split; exact I|]. rewrite app_nil_r in L. exists (Word (B"ORDER") :: Word (B"BY") :: ts). split; [|split].
      + fx (B" ORDER BY ") [Word (B"ORDER"); Word (B"BY")]. exact L.
      + reflexivity.
      + specialize (P [] eq_refl). rewrite app_nil_r in P. words. rewrite P. reflexivity.
    - exists []. split; [constructor|]. split; reflexivity. }
  destruct T as (t3 & L3 & D3 & P3). assert (E3 : ends tail).
  { unfold tail. destruct (data_key t); ending. }
  clearbody tail. destruct (table_ref_read d (shown current t) G tail E3) as (t2 & L2 & P2). specialize (P2 t3 D3).
  assert (F : exists t1, lexed d (B"SELECT " ++ columns_text d (data_columns t) ++ B" FROM " ++ full_name d (shown current t) ++ tail) (Word (B"SELECT") :: t1 ++ Word (B"FROM") :: t2 ++ t3) []
    /\ select_list d (t1 ++ Word (B"FROM") :: t2 ++ t3) = Some (data_columns t, Word (B"FROM") :: t2 ++ t3)).
  { destruct (data_columns t) as [|c l] eqn:C.
    - destruct (rd_some d t R) as [X|X]; [congruence|]. subst d. exists []. split; [|reflexivity].
      change (B"SELECT " ++ columns_text Postgres [] ++ B" FROM " ++ full_name Postgres (shown current t) ++ tail) with (B"SELECT  FROM " ++ full_name Postgres (shown current t) ++ tail).
      fx (B"SELECT  FROM ") [Word (B"SELECT"); Word (B"FROM")]. apply (lexed_app _ _ _ _ _ _ L2). exact L3.
    - destruct (columns_text_read d (c :: l)) with (rest := B" FROM " ++ full_name d (shown current t) ++ tail) as (t1 & L1 & P1); [split; [discriminate|intros x I; apply (rd_columns d t R); rewrite C; exact I]|ending|].
      exists t1. split.
      + fx (B"SELECT ") [Word (B"SELECT")]. apply (lexed_app _ _ _ _ _ _ L1). fx (B" FROM ") [Word (B"FROM")]. apply (lexed_app _ _ _ _ _ _ L2). exact L3.
      + specialize (P1 (Word (B"FROM") :: t2 ++ t3) eq_refl). unfold select_list. destruct d; try exact P1.
        destruct (kw (B"from") (t1 ++ Word (B"FROM") :: t2 ++ t3)) eqn:K; [|exact P1]. exfalso.
        destruct (t1 ++ Word (B"FROM") :: t2 ++ t3) as [|[w| | | | |] r] eqn:X; try discriminate K. cbn [kw] in K.
        destruct (beqb_spec (to_lower w) (to_lower (B"from"))) as [E|]; [|discriminate K].
        unfold names, tlist in P1. cbn [tlist_ name name_token] in P1. rewrite E in P1. discriminate P1. }
  destruct F as (t1 & L1 & P1). unfold read_select. rewrite (lexed_tokens _ _ _ L1). cbn [andthen]. words. rewrite P1. words. rewrite P2. exact P3.
Qed.

Lemma columns_stored t : data_columns t = stored (tb_columns t).
Proof.
  unfold data_columns. induction (tb_columns t) as [|c l IH]; [reflexivity|]. cbn [filter stored]. destruct (col_generated c).
  - rewrite orb_true_r. exact IH.
  - rewrite orb_false_r, negb_involutive. destruct (col_expr c); cbn [is_empty]; [cbn [map]; rewrite IH; reflexivity|exact IH].
Qed.
Lemma header_stored t : data_header t = stored (tb_columns t).
Proof. exact (columns_stored t). Qed.
Lemma stored_column l x : In x (stored l) -> exists c, In c l /\ col_name c = x.
Proof.
  induction l as [|c l IH]; [intros []|]. cbn [stored]. destruct (col_generated c); [intros I; destruct (IH I) as (y & ? & ?); exists y; split; [right|]; assumption|].
  destruct (col_expr c); [intros [<-|I]; [exists c; split; [left; reflexivity|reflexivity]|]|intros I]; destruct (IH I) as (y & ? & ?); exists y; (split; [right|]; assumption).
Qed.
Lemma key_constraint t k : data_key t = Some k -> exists c, In c (tb_constraints t) /\ con_type c = PRIMARY_KEY /\ con_columns c = k.
Proof.
  unfold data_key. destruct (find _ _) as [c|] eqn:F; [|discriminate]. intros E. injection E as <-. apply find_some in F. destruct F as (I & F). apply andb_true_iff in F. destruct F as (F & _).
  exists c. split; [exact I|]. split; [apply beqb_eq, F|reflexivity].
Qed.
Lemma sound_readable d t : sound d t -> something_stored d t -> readable d t.
Proof.
  intros S N. constructor.
  - intros N0. apply good_name_iff. exact (so_schema d t S N0).
  - apply good_name_iff. exact (so_name d t S).
  - intros c I. rewrite columns_stored in I. apply stored_column in I. destruct I as (y & I & <-). apply good_name_iff. exact (so_columns d t S y I).
  - rewrite columns_stored. exact N.
  - intros k K. apply key_constraint in K. destruct K as (c & I & T & <-). destruct (so_keys d t S c I T) as (X & Y). split; [exact X|].
    intros x J. specialize (Y x J). apply in_map_iff in Y. destruct Y as (y & <- & Iy). apply good_name_iff. exact (so_columns d t S y Iy).
Qed.
Lemma shown_place current t : located current (shown current t) = place current t.
Proof.
  unfold shown, place, located. cbn [fst snd]. destruct (tb_schema t) as [|a s]; [reflexivity|]. cbn [is_empty negb andb].
  destruct (beqb_spec (a :: s) current) as [E|]; cbn [negb is_empty]; [rewrite E; reflexivity|reflexivity].
Qed.
Lemma answer_query d current t st : readable d t ->
  answer d current st (data_query d current t) =
    let? c := st (place current t) in
    if forallb (fun x => bmem x (rows_columns c)) (data_columns t ++ key_of t) then Some (rows (dumped (stored (tb_columns t)) c)) else None.
Proof.
  intros R. unfold answer. rewrite data_query_read by exact R. cbn [andthen sl_from sl_columns sl_order]. rewrite shown_place.
  destruct (st (place current t)) as [c|]; [|reflexivity]. cbn [andthen]. rewrite columns_stored. reflexivity.
Qed.
Lemma key_columns d t : sound d t -> incl (key_of t) (map col_name (tb_columns t)).
Proof.
  intros S. unfold key_of. destruct (data_key t) as [k|] eqn:K; [|intros x []]. apply key_constraint in K. destruct K as (c & I & T & <-). exact (proj2 (so_keys d t S c I T)).
Qed.

(** ** The queries *)
Lemma queries_tables d cat : map fst (data_queries d cat) = filter (fun t => negb (dialect_eqb d SQLite && is_virtual t)) (flat_map sc_tables (ct_schemas cat)).
Proof.
  unfold data_queries. generalize (ct_schemas cat) as l. induction l as [|s l IH]; [reflexivity|]. cbn [flat_map]. rewrite map_app, filter_app. f_equal; [|exact IH].
  induction (sc_tables s) as [|t ts IHt]; [reflexivity|]. cbn [flat_map filter]. rewrite map_app, IHt. destruct (_ && _); reflexivity.
Qed.
Lemma queries_text d cat t text : In (t, text) (data_queries d cat) -> text = data_query d (ct_current cat) t.
Proof.
  unfold data_queries. intros I. apply in_flat_map in I. destruct I as (s & _ & I). apply in_flat_map in I. destruct I as (t' & _ & I).
  destruct (_ && _); [destruct I|]. destruct I as [E|[]]. injection E as <- <-. reflexivity.
Qed.
Lemma asked_in archive l q x : asked_as archive l q -> In x q <-> In x l.
Proof. destruct archive; cbn [asked_as]; [intros ->; reflexivity|intros P; split; intros I; [exact (Permutation_in _ P I)|exact (Permutation_in _ (Permutation_sym P) I)]]. Qed.
Lemma asked_length archive l q : asked_as archive l q -> List.length q = List.length l.
Proof. destruct archive; cbn [asked_as]; [intros ->; reflexivity|apply Permutation_length]. Qed.
Lemma asked_places archive (f : table * bytes -> tid) l q : asked_as archive l q -> NoDup (map f l) -> NoDup (map f q).
Proof. destruct archive; cbn [asked_as]; [intros ->; tauto|]. intros P. apply Permutation_NoDup, Permutation_map, Permutation_sym, P. Qed.

(** ** Events *)
Lemma asked_app a b : asked (a ++ b) = asked a ++ asked b.
Proof. induction a as [|[st|q] a IH]; cbn [app asked]; [reflexivity|exact IH|rewrite IH; reflexivity]. Qed.
Lemma after_app a b st : after st (a ++ b) = after (after st a) b.
Proof. revert st. induction a as [|[st'|q] a IH]; intros st; cbn [app after]; [reflexivity| |]; apply IH. Qed.
Lemma states_first st es : In st (states st es).
Proof. revert st. induction es as [|[st'|q] es IH]; intros st; cbn [states]; [left; reflexivity|left; reflexivity|apply IH]. Qed.
Lemma states_after st a b : In (after st a) (states st (a ++ b)).
Proof. revert st. induction a as [|[st'|q] a IH]; intros st; cbn [app after states]; [apply states_first|right; apply IH|apply IH]. Qed.
Lemma in_asked q es : In q (asked es) -> exists a b, es = a ++ Asks q :: b.
Proof.
  induction es as [|[st|q'] es IH]; cbn [asked]; [intros []| |].
  - intros I. destruct (IH I) as (a & b & ->). exists (Commits st :: a), b. reflexivity.
  - intros [<-|I]; [exists [], es; reflexivity|]. destruct (IH I) as (a & b & ->). exists (Asks q' :: a), b. reflexivity.
Qed.
Lemma dump_length d cur hd es : forall st l, dump d cur hd st es = Some l -> List.length l = List.length (asked es).
Proof.
  induction es as [|[st'|[t text]] es IH]; intros st l; cbn [dump asked].
  - intros E. injection E as <-. reflexivity.
  - apply IH.
  - destruct (answer d cur st text); cbn [andthen]; [|discriminate]. destruct (dump d cur hd st es) eqn:D; cbn [andthen]; [|discriminate]. intros E. injection E as <-. cbn [List.length]. rewrite (IH _ _ D). reflexivity.
Qed.
Lemma dump_entry d cur hd es : forall st l x, dump d cur hd st es = Some l ->
  In x l <-> exists a t text b r, es = a ++ Asks (t, text) :: b /\ answer d cur (after st a) text = Some r /\ x = (place cur t, Content (hd t) r).
Proof.
  induction es as [|[st'|[t text]] es IH]; intros st l x; cbn [dump].
  - intros E. injection E as <-. split; [intros []|]. intros (a & t & text & b & r & E & _). destruct a; discriminate E.
  - intros D. rewrite (IH _ _ x D). split.
    + intros (a & t & text & b & r & -> & A & E). exists (Commits st' :: a), t, text, b, r. auto.
    + intros (a & t & text & b & r & E & A & X). destruct a as [|e a]; [discriminate E|]. injection E as <- ->. exists a, t, text, b, r. auto.
  - destruct (answer d cur st text) as [r0|] eqn:A0; cbn [andthen]; [|discriminate]. destruct (dump d cur hd st es) as [l0|] eqn:D; cbn [andthen]; [|discriminate].
    intros E. injection E as <-. cbn [In]. rewrite (IH _ _ x D). split.
    + intros [<-|(a & t' & text' & b & r & -> & A & E)]; [exists [], t, text, es, r0; auto|]. exists (Asks (t, text) :: a), t', text', b, r. auto.
    + intros (a & t' & text' & b & r & E & A & X). destruct a as [|e a].
      * injection E as <- <- <-. left. cbn [after] in A. congruence.
      * injection E as <- ->. right. exists a, t', text', b, r. auto.
Qed.
(** Two places at which a table is asked for are the same. *)
Lemma split_asks cur es a t x b : NoDup (map (fun q => place cur (fst q)) (asked es)) -> es = a ++ Asks (t, x) :: b ->
  forall a' t' x' b', es = a' ++ Asks (t', x') :: b' -> place cur t' = place cur t -> a' = a /\ t' = t /\ x' = x.
Proof.
  intros N ->. revert N. induction a as [|e a IH]; intros N a' t' x' b' E P.
  - destruct a' as [|e' a']; [injection E as -> -> ->; auto|]. injection E as <- ->. exfalso. cbn [app asked map fst] in N. inversion N as [|? ? H _]; subst. apply H.
    rewrite asked_app, map_app. apply in_app_iff. right. left. cbn [fst]. exact P.
  - destruct a' as [|e' a'].
    + injection E as -> _. exfalso. cbn [app asked map fst] in N. inversion N as [|? ? H _]; subst. apply H. rewrite asked_app, map_app. apply in_app_iff. right. left. cbn [fst]. congruence.
    + injection E as <- E. destruct (IH) with (a' := a') (t' := t') (x' := x') (b' := b') as (-> & -> & ->); [|exact E|exact P|auto].
      destruct e; cbn [app asked map] in N; [exact N|]. inversion N. assumption.
Qed.

(** ** Rows *)
Lemma at_dumped cols r cs x : In x cs -> at_column cs (map (at_column cols r) cs) x = at_column cols r x.
Proof.
  intros I. unfold at_column at 1. induction cs as [|c cs IH]; [destruct I|]. cbn [map combine find fst]. destruct (beqb_spec c x) as [->|N]; [reflexivity|].
  apply IH. destruct I as [E|I]; [congruence|exact I].
Qed.
Lemma refers_dumped f c p cs ps : incl (rf_columns f) cs -> incl (rf_keys f) ps -> refers f c p -> refers f (dumped cs c) (dumped ps p).
Proof.
  intros Ic Ip H r I F. cbn [dumped rows rows_columns] in *. apply in_map_iff in I. destruct I as (r0 & <- & I).
  destruct (H r0 I) as (p0 & Ip0 & E). { intros x Ix. specialize (F x Ix). rewrite at_dumped in F by (apply Ic, Ix). exact F. }
  exists (map (at_column (rows_columns p) p0) ps). split; [apply in_map_iff; exists p0; auto|].
  rewrite (map_ext_in _ (at_column (rows_columns p) p0)) by (intros x Ix; apply at_dumped, Ip, Ix).
  rewrite E. apply map_ext_in. intros x Ix. symmetry. apply at_dumped, Ic, Ix.
Qed.
Lemma refers_more f c p p' : rows_columns p' = rows_columns p -> incl (rows p) (rows p') -> refers f c p -> refers f c p'.
Proof. intros E I H r Ir F. destruct (H r Ir F) as (x & Ix & X). exists x. rewrite E. split; [apply I, Ix|exact X]. Qed.
Lemma grows_refl st : grows st st.
Proof. intros i c E. exists c. split; [exact E|]. split; [reflexivity|apply incl_refl]. Qed.
Lemma grows_trans a b c : grows a b -> grows b c -> grows a c.
Proof. intros H K i x E. destruct (H i x E) as (y & Ey & Cy & Iy). destruct (K i y Ey) as (z & Ez & Cz & Iz). exists z. split; [exact Ez|]. split; [congruence|eapply incl_tran; eassumption]. Qed.
Lemma growing_app a b st : growing st (a ++ b) -> growing st a /\ growing (after st a) b.
Proof.
  revert st. induction a as [|[st'|q] a IH]; intros st; cbn [app growing after]; [tauto| |apply IH]. intros (H & K). destruct (IH _ K) as (K1 & K2). auto.
Qed.
Lemma growing_after a st : growing st a -> grows st (after st a).
Proof.
  revert st. induction a as [|[st'|q] a IH]; intros st; cbn [growing after]; [intros _; apply grows_refl| |apply IH]. intros (H & K). eapply grows_trans; [exact H|apply IH, K].
Qed.
