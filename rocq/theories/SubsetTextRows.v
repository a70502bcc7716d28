(** The rows selected by the text of a dump query. *)
From Coq Require Import Permutation ZifyBool ZifyNat.
From Verif Require Import GoStr GoStrFacts ModelSq SpecSql SqFacts SpecInsert SpecTokens TokenFacts TokenReads ModelDdl ModelSubset SpecSubset SubsetFacts SubsetRows SubsetIntact SubsetComplete
  ModelSubsetText SpecSubsetText SubsetTextFacts SubsetTextQuery.

(** ** Values do not matter for the search *)
Definition map_result {V W} (f : V -> W) (r : qresult V) : qresult W := Qresult (q_cols r) (map (map f) (q_records r)).
Definition map_subsetter {V W} (f : V -> W) (ss : subsetter V) : subsetter W := Subsetter (map (map_result f) (s_results ss)) (s_joins ss) (s_nums ss).
Lemma add_subset_map {V W} (f : V -> W) cat e t pk rs ss :
  add_subset cat e t pk (map (map f) rs) (map_subsetter f ss) = match add_subset cat e t pk rs ss with Found x => Found (map_subsetter f x) | Crash => Crash | Fuel => Fuel end.
Proof.
  unfold add_subset. change (s_results (map_subsetter f ss)) with (map (map_result f) (s_results ss)).
  replace (map (map_result f) (s_results ss) ++ [Qresult pk (map (map f) rs)]) with (map (map_result f) (s_results ss ++ [Qresult pk rs])) by (rewrite map_app; reflexivity).
  rewrite map_length. destruct (subset_joins cat e (List.length (s_results ss ++ [Qresult pk rs])) t pk); reflexivity.
Qed.
Lemma add_subsets_map {V W} (f : V -> W) cat qs ss :
  add_subsets cat (map (map_squery f) qs) (map_subsetter f ss) = match add_subsets cat qs ss with Found x => Found (map_subsetter f x) | Crash => Crash | Fuel => Fuel end.
Proof.
  revert ss. induction qs as [|q qs IH]; intros ss; cbn [map add_subsets]; [reflexivity|]. unfold map_squery at 1 2 3 4. cbn [y_extended y_table y_pkey y_records]. rewrite add_subset_map.
  destruct (add_subset cat (y_extended q) (y_table q) (y_pkey q) (y_records q) ss); [apply IH|reflexivity|reflexivity].
Qed.
Lemma all_some_map {A C D} (f : A -> option C) (g : C -> D) l : all_some (map (fun x => option_map g (f x)) l) = option_map (map g) (all_some (map f l)).
Proof. induction l as [|x l IH]; cbn [map all_some]; [reflexivity|]. destruct (f x); cbn [option_map]; [|reflexivity]. rewrite IH. destruct (all_some (map f l)); reflexivity. Qed.
Lemma combine_map_right {A C D} (g : C -> D) (a : list A) b : combine a (map g b) = map (fun p => (fst p, g (snd p))) (combine a b).
Proof. revert b. induction a as [|x a IH]; intros [|y b]; cbn [combine map]; [reflexivity..|]. rewrite IH. reflexivity. Qed.
Lemma table_query_map {V W} (f : V -> W) cat ss i : table_query cat (map_subsetter f ss) i = bindr (table_query cat ss i) (fun q => Ok (map_query f q)).
Proof.
  unfold table_query. set (i' := (if beqb (fst i) [] then c_cur cat else fst i, snd i)). destruct (find_table cat i') as [t|]; [|reflexivity]. destruct (t_pkey t) as [k|]; [|reflexivity].
  change (s_nums (map_subsetter f ss)) with (s_nums ss). change (s_joins (map_subsetter f ss)) with (s_joins ss). change (s_results (map_subsetter f ss)) with (map (map_result f) (s_results ss)).
  destruct (get_nums i' (s_nums ss)) as [|n0 ns]; [reflexivity|]. set (nums := n0 :: ns).
  replace (map (fun n => nth_error (map (map_result f) (s_results ss)) n) nums) with (map (fun n => option_map (map_result f) (nth_error (s_results ss) n)) nums)
    by (apply map_ext; intros n; symmetry; apply nth_error_map).
  rewrite all_some_map. destruct (all_some (map (fun n => nth_error (s_results ss) n) nums)) as [rs|]; cbn [option_map]; [|reflexivity].
  destruct (all_some (map to_sql (get_joins i' (s_joins ss)))) as [sels|]; [|reflexivity]. cbn [bindr]. f_equal. unfold map_query. cbn [sq_values sq_selects sq_table sq_key sq_columns]. f_equal.
  rewrite combine_map_right, !map_map. apply map_ext. intros [n r]. reflexivity.
Qed.
Lemma map_query_map {U V W} (f : U -> V) (g : V -> W) q : map_query g (map_query f q) = map_query (fun x => g (f x)) q.
Proof. unfold map_query. cbn [sq_values sq_selects sq_table sq_key sq_columns]. rewrite map_map. f_equal. apply map_ext. intros [[n c] r]. unfold map_values. cbn [fst snd]. rewrite map_map. f_equal. apply map_ext. intros x. apply map_map. Qed.
Lemma map_query_id {V} (q : sql_query V) : map_query (fun x => x) q = q.
Proof.
  destruct q as [v s t k c]. unfold map_query. cbn [sq_values sq_selects sq_table sq_key sq_columns]. f_equal. rewrite <- (map_id v) at 2. apply map_ext. intros [[n cs] r]. unfold map_values. cbn [fst snd]. f_equal.
  rewrite <- (map_id r) at 2. apply map_ext. intros x. apply map_id.
Qed.

(** ** Names of results *)
Lemma digits_plain s : forallb is_digit s = true -> forallb ident_char s = true /\ forallb ident_continue s = true /\ to_lower s = s.
Proof.
  induction s as [|c s IH]; cbn [forallb]; [auto|]. intros H. apply andb_prop in H as [H1 H2]. destruct (IH H2) as (A & C & D). unfold to_lower in *. cbn [map]. rewrite A, C, D.
  repeat split; try f_equal; revert H1; clear; destruct c as [[] [] [] [] [] [] [] []]; vm_compute; congruence.
Qed.
Lemma result_chars n : let w := snd (result_name n) in forallb ident_char w = true /\ forallb ident_continue w = true /\ to_lower w = w.
Proof.
  cbn zeta. unfold result_name. cbn [snd]. destruct (digits_plain (nat_dec n)) as (A & C & D); [apply forallb_forall; unfold nat_dec; apply Forall_forall; apply N_dec_digits|].
  rewrite !forallb_app, A, C. repeat split. unfold to_lower in *. rewrite !map_app, D. reflexivity.
Qed.
Lemma result_not_in n l : forallb (fun k => negb (ceqb (last k "x"%char) "_")) l = true -> bmem (snd (result_name n)) l = false.
Proof.
  intros H. apply bmem_not_In. intros I. rewrite forallb_forall in H. apply H in I. unfold result_name in I. cbn [snd] in I. rewrite app_assoc in I. change (B"_") with ["_"%char] in I. rewrite last_last in I. discriminate I.
Qed.
Lemma result_good d n : word_ok d (snd (result_name n)) /\ good_tid d (result_name n).
Proof.
  destruct (result_chars n) as (A & C & L). assert (F : fold_ident d (snd (result_name n)) = snd (result_name n)) by (destruct d; solve [reflexivity|exact L]). split.
  - split; [exact C|]. split; [reflexivity|]. split; [|exact F]. rewrite L. apply result_not_in. destruct d; vm_compute; reflexivity.
  - split; [intros X; destruct (X eq_refl)|]. unfold good, denoted. replace (needs_quoting d (snd (result_name n))) with false; [exact F|]. symmetry.
    unfold needs_quoting. assert (E : exists w, snd (result_name n) = "q"%char :: w) by (eexists; reflexivity). destruct E as (w & E). rewrite E, <- E.
    rewrite result_not_in by (vm_compute; reflexivity). rewrite A, L, result_not_in; [reflexivity|]. destruct d; vm_compute; reflexivity.
Qed.

(** ** Queries of a catalog are written well *)
Lemma good_name_iff d n : good_name d n <-> good d n.
Proof.
  unfold good_name, good. pose proof (lex_quote_identifier d n [] I) as H. rewrite app_nil_r in H. rewrite H. split; [intros E; injection E as E; exact E|intros E; rewrite E; reflexivity].
Qed.
Lemma good_table_tid d i : good_table d i -> good_tid d i.
Proof. intros [A C]. split; [intros N; apply good_name_iff; exact (A N)|apply good_name_iff; exact C]. Qed.
Lemma good_columns_ok d l : good_columns d l -> names_ok d l.
Proof. intros [A C]. split; [exact A|]. intros c Ic. apply good_name_iff. exact (C c Ic). Qed.
Lemma pair_columns_good d t1 c1 t2 c2 on : pair_columns t1 c1 t2 c2 = Some on -> good_tid d t1 -> good_tid d t2 -> names_ok d c1 -> names_ok d c2 -> good_conds d on.
Proof.
  intros E G1 G2 [N1 H1] [N2 H2]. split.
  - intros ->. destruct c1 as [|a c1]; [exact (N1 eq_refl)|]. destruct c2 as [|b c2]; cbn [pair_columns] in E; [discriminate E|]. destruct (pair_columns t1 c1 t2 c2); discriminate E.
  - clear N1 N2. revert c2 on E H2. induction c1 as [|a c1 IH]; intros c2 on E H2 x y I; cbn [pair_columns] in E; [injection E as <-; destruct I|].
    destruct c2 as [|b c2]; [discriminate E|]. destruct (pair_columns t1 c1 t2 c2) as [l|] eqn:El; [|discriminate E]. injection E as <-. destruct I as [Q|I].
    + injection Q as <- <-. split; (split; [assumption|]); cbn [snd]; [apply H2|apply H1]; left; reflexivity.
    + apply (IH (fun c Ic => H1 c (or_intror Ic)) c2 l El (fun c Ic => H2 c (or_intror Ic)) x y I).
Qed.
Definition fkey_good d f := good_tid d (f_from f) /\ good_tid d (f_to f) /\ names_ok d (f_cols f) /\ names_ok d (f_rcols f).
Lemma sql_rest_good d fs : (forall f, In f fs -> fkey_good d f) -> forall cur l, sql_rest cur fs = Some l -> forall t on, In (t, on) l -> good_tid d t /\ good_conds d on.
Proof.
  induction fs as [|f fs IH]; intros G cur l E t on I; cbn [sql_rest] in E; [injection E as <-; destruct I|]. destruct (G f (or_introl eq_refl)) as (G1 & G2 & G3 & G4).
  assert (X : forall t1 c1 t2 c2, match pair_columns t1 c1 t2 c2, sql_rest t2 fs with Some on, Some l => Some ((t2, on) :: l) | _, _ => None end = Some l ->
     good_tid d t1 -> good_tid d t2 -> names_ok d c1 -> names_ok d c2 -> good_tid d t /\ good_conds d on).
  { intros t1 c1 t2 c2 E' A1 A2 A3 A4. destruct (pair_columns t1 c1 t2 c2) as [on'|] eqn:Ep; [|discriminate E']. destruct (sql_rest t2 fs) as [l'|] eqn:El; [|discriminate E']. injection E' as <-.
    destruct I as [Q|I]; [injection Q as <- <-; split; [assumption|exact (pair_columns_good d t1 c1 t2 c2 on' Ep A1 A2 A3 A4)]|]. exact (IH (fun f0 I0 => G f0 (or_intror I0)) t2 l' El t on I). }
  destruct (tid_eqb cur (f_from f)); [apply (X _ _ _ _ E); assumption|]. destruct (tid_eqb cur (f_to f)); [apply (X _ _ _ _ E); assumption|discriminate E].
Qed.
Lemma vpath_fkeys cat n t k ts fs a : vpath cat n t k ts fs a -> forall f, In f fs -> f = base_fkey n t k \/ In f (all_fks cat).
Proof. induction 1 as [|ts fs a f b H IH L I N]; intros g Ig; [destruct Ig as [<-|[]]; left; reflexivity|]. apply in_app_iff in Ig as [Ig|[<-|[]]]; [exact (IH g Ig)|right; exact I]. Qed.
(** ** The numbers of results *)
Lemma nums_fold_nodup {A} i n (m : list (tid * A)) acc : NoDup (map fst m) -> NoDup (get_nums i acc) -> ~ In n (get_nums i acc) -> NoDup (get_nums i (fold_left (fun a p => add_num (fst p) n a) m acc)).
Proof.
  revert acc. induction m as [|[k l] m IH]; intros acc Nd Na Ni; cbn [fold_left fst]; [exact Na|]. cbn [map fst] in Nd. inversion Nd as [|? ? N1 N2]; subst.
  destruct (tid_eqb_spec i k) as [->|Ne].
  - assert (E : forall acc, ~ In k (map fst m) -> get_nums k (fold_left (fun a p => add_num (fst p) n a) m acc) = get_nums k acc).
    { clear. induction m as [|[x y] m IH]; intros acc Nk; cbn [fold_left fst]; [reflexivity|]. rewrite IH by (intros X; apply Nk; right; exact X). rewrite nums_add. destruct (tid_eqb_spec k x) as [->|]; [destruct Nk; left; reflexivity|reflexivity]. }
    rewrite E by exact N1. rewrite nums_add, SubsetFacts.tid_eqb_refl. apply (Permutation_NoDup (l := n :: get_nums k acc)); [apply Permutation_cons_append|constructor; assumption].
  - apply IH; [exact N2| |]; rewrite nums_add; destruct (tid_eqb_spec i k); congruence.
Qed.
Lemma add_subsets_nums {V} cat (qs : list (squery V)) : catalog_ok cat -> (forall q, In q qs -> In (y_table q) (c_tables cat)) -> forall ss ss',
  (forall i, NoDup (get_nums i (s_nums ss)) /\ forall k, In k (get_nums i (s_nums ss)) -> k < List.length (s_results ss)) -> add_subsets cat qs ss = Found ss' ->
  (forall i, NoDup (get_nums i (s_nums ss'))) /\ s_results ss' = s_results ss ++ map (fun q => Qresult (y_pkey q) (y_records q)) qs.
Proof.
  intros CO. induction qs as [|q qs IH]; intros T ss ss' H E; cbn [add_subsets] in E.
  - injection E as <-. split; [intros i; apply H|]. symmetry. apply app_nil_r.
  - destruct (add_subset cat (y_extended q) (y_table q) (y_pkey q) (y_records q) ss) as [s1| |] eqn:E1; try discriminate E. unfold add_subset in E1.
    destruct (subset_joins cat (y_extended q) (List.length (s_results ss ++ [Qresult (y_pkey q) (y_records q)])) (y_table q) (y_pkey q)) as [m| |] eqn:Em; try discriminate E1. injection E1 as <-.
    destruct (subset_good cat _ (y_table q) (y_pkey q) CO (T q (or_introl eq_refl)) _ _ Em) as [G _].
    refine ((fun P => _) (IH (fun q0 I0 => T q0 (or_intror I0)) _ ss' _ E)); [destruct P as [A C]; split; [exact A|]; rewrite C; cbn [s_results map]; rewrite <- app_assoc; reflexivity|].
    intros i. cbn [s_nums s_results]. rewrite app_length. cbn [List.length]. destruct (H i) as [H1 H2]. split.
    + apply nums_fold_nodup; [exact (g_nodup _ _ _ _ _ G)|exact H1|]. intros X. apply H2 in X. lia.
    + intros k Ik. apply nums_fold in Ik as [Ik|[-> _]]; [apply H2 in Ik; lia|lia].
Qed.

(** ** The query of a table *)
Lemma all_some_in {A C} (f : A -> option C) l r : all_some (map f l) = Some r -> List.length r = List.length l /\ forall y, In y r -> exists x, In x l /\ f x = Some y.
Proof.
  revert r. induction l as [|x l IH]; intros r E; cbn [map all_some] in E; [injection E as <-; split; [reflexivity|intros y []]|]. destruct (f x) as [c|] eqn:Ex; [|discriminate E].
  destruct (all_some (map f l)) as [r'|]; [|discriminate E]. injection E as <-. destruct (IH r' eq_refl) as [L H]. split; [cbn [List.length]; congruence|]. intros y [<-|I]; [eauto using in_eq|]. destruct (H y I) as (z & Iz & Ez). eauto using in_cons.
Qed.
Lemma combine_nodup {A C D} (g : A -> D) (a : list A) (b : list C) : (forall x y, g x = g y -> x = y) -> NoDup a -> NoDup (map (fun p => g (fst p)) (combine a b)).
Proof.
  intros Inj. revert b. induction a as [|x a IH]; intros [|y b] N; cbn [combine map]; try constructor; inversion N as [|? ? N1 N2]; subst; [|apply IH; exact N2].
  intros I. apply in_map_iff in I as ([u v] & E & I). cbn [fst] in E. apply Inj in E as ->. apply N1. exact (in_combine_l _ _ _ _ I).
Qed.
Section Catalog.
Context (d : dialect) (cat : catalog) (CO : catalog_ok cat) (CL : closed cat) (NF : names_fit d cat) (qs : list (squery bytes)) (QF : queries_fit d cat qs).
Let f := fun s => nullable (literal_value d s).
Lemma valued_ok : queries_ok cat (map (valued d) qs).
Proof. intros q Iq. apply in_map_iff in Iq as (x & <- & Ix). destruct (QF x Ix) as (A & C & _). split; assumption. Qed.
Lemma subsetters : exists ss, add_subsets cat qs empty_subsetter = Found ss /\ add_subsets cat (map (valued d) qs) empty_subsetter = Found (map_subsetter f ss) /\ describes cat (map (valued d) qs) (map_subsetter f ss).
Proof.
  destruct (add_subsets_describes cat CO CL (map (valued d) qs) valued_ok) as (sv & E & DS). pose proof (add_subsets_map f cat qs empty_subsetter) as M. change (map (map_squery f) qs) with (map (valued d) qs) in M.
  change (map_subsetter f empty_subsetter) with (@empty_subsetter (option value)) in M. rewrite E in M. destruct (add_subsets cat qs empty_subsetter) as [ss| |]; try discriminate M. injection M as ->. exists ss. auto.
Qed.
Lemma lit_read s : read_constant d s <> None -> lit_ok d (s, literal_value d s).
Proof.
  unfold read_constant, literal_value, read_constant, lit_ok. destruct (tokens d s) as [ts|] eqn:E; cbn [andthen]; [|congruence]. destruct (constant d ts) as [[v r]|] eqn:Ec; cbn [andthen]; [|congruence].
  destruct r; [|congruence]. intros _. apply (constant_read d s ts v); assumption.
Qed.
Lemma key_good t k : In t (c_tables cat) -> t_pkey t = Some k -> forall n, fkey_good d (base_fkey n t k).
Proof. intros It Ik n. pose proof (good_columns_ok _ _ (nf_key d cat NF t k It Ik)) as K. exact (conj (proj2 (result_good d n)) (conj (good_table_tid _ _ (nf_table d cat NF t It)) (conj K K))). Qed.
Lemma fks_good g : In g (all_fks cat) -> fkey_good d g.
Proof.
  intros Ig. destruct (CL g Ig) as (t & It & Et). destruct (from_in_tables cat CO g Ig) as (t' & It' & Et' & _). split; [rewrite <- Et'; apply good_table_tid, (nf_table d cat NF); exact It'|]. split; [rewrite <- Et; apply good_table_tid, (nf_table d cat NF); exact It|]. split; apply good_columns_ok; apply (nf_fkey d cat NF g Ig).
Qed.
Lemma table_query_fits t k ss q : In t (c_tables cat) -> t_pkey t = Some k -> add_subsets cat qs empty_subsetter = Found ss -> table_query cat ss (t_id t) = Ok q ->
  SubsetTextQuery.query_ok d (map_query (fun s => (s, literal_value d s)) q).
Proof.
  intros It Ik Es Eq. destruct subsetters as (ss' & E1 & _ & DS). rewrite Es in E1. injection E1 as <-. destruct DS as (_ & J & Nm & _). cbn [map_subsetter s_joins s_nums] in J, Nm.
  destruct (add_subsets_nums cat qs CO (fun q Iq => proj1 (QF q Iq)) empty_subsetter ss) as [Nd R]; [intros i; split; [constructor|intros x []]|exact Es|]. cbn [s_results empty_subsetter app] in R.
  unfold table_query in Eq. rewrite (schema_fixed cat CO t It), (find_table_in cat CO t It), Ik in Eq. specialize (Nd (t_id t)). specialize (Nm (t_id t)). remember (get_nums (t_id t) (s_nums ss)) as nums eqn:Hn. clear Hn.
  destruct nums as [|n0 ns] eqn:En; [discriminate Eq|]. rewrite <- En in *.
  destruct (all_some (map (fun n => nth_error (s_results ss) n) nums)) as [rs|] eqn:Er; [|discriminate Eq]. destruct (all_some (map to_sql (get_joins (t_id t) (s_joins ss)))) as [sels|] eqn:Ej; [|discriminate Eq]. injection Eq as <-.
  (* the paths *)
  assert (PJ : forall s, In s sels -> good_join d s /\ ~ In ([], pk) (tables_of s)).
  { intros s Is. destruct (all_some_in _ _ _ Ej) as [_ H]. destruct (H s Is) as (j & Ij & Es1). apply J in Ij as (n & qv & m & [F1 F2] & Ij).
    apply nth_error_In, in_map_iff in F1 as (x & <- & Ix). destruct (QF x Ix) as (Ix1 & Ix2 & _). cbn [valued map_squery y_table y_pkey y_extended] in F2. destruct (subset_good _ _ _ _ CO Ix1 _ _ F2) as [G _].
    pose proof (g_paths _ _ _ _ _ G _ _ Ij) as P.
    assert (Tb : forall k0, In k0 (j_tables j) -> exists t', In t' (c_tables cat) /\ t_id t' = k0) by (intros k0 Ik0; exact (vpath_in_catalog _ _ _ _ CO Ix1 _ _ _ CL P k0 Ik0)).
    destruct (to_sql_ok cat (S n) (y_table x) (y_pkey x) CO j (t_id t) P) as (s' & E1 & E2 & E3 & _ & _).
    { intros k0 Ik0. destruct (Tb k0 Ik0) as (t' & It' & <-). apply (co_results _ CO). exact It'. }
    rewrite Es1 in E1. injection E1 as <-. split.
    - split; [rewrite E2; apply (good_table_tid _ _ (nf_table d cat NF t It))|]. intros t1 on I1. unfold to_sql in Es1. destruct (rev (j_tables j)) as [|l0 r0]; [discriminate Es1|]. destruct (sql_rest l0 (rev (j_fkeys j))) as [l1|] eqn:El; [|discriminate Es1]. injection Es1 as <-.
      cbn [sj_rest] in I1. apply (sql_rest_good d (rev (j_fkeys j))) with (cur := l0) (l := l1); [|exact El|exact I1]. intros g Ig. apply in_rev in Ig.
      destruct (vpath_fkeys _ _ _ _ _ _ _ P g Ig) as [->|Ig']; [apply key_good; assumption|apply fks_good; exact Ig'].
    - unfold tables_of. rewrite E3. intros X. apply in_app_iff in X as [X|[X|[]]]; [|discriminate X]. apply in_rev in X. destruct (Tb _ X) as (t' & It' & Et'). exact (nf_pkey d cat NF t' It' Et'). }
  split; cbn [map_query sq_values sq_selects sq_table sq_key sq_columns].
  - intros n cols recs Iv. apply in_map_iff in Iv as ([[n1 c1] r1] & Ev & Iv). unfold map_values in Ev. cbn [fst snd] in Ev. injection Ev as -> -> <-. apply in_map_iff in Iv as ([x y] & Ev & Iv). cbn [fst snd] in Ev. injection Ev as <- <- <-.
    destruct (all_some_combine _ _ _ Er x y Iv) as [Ix Ey]. rewrite R in Ey. apply nth_error_In, in_map_iff in Ey as (z & <- & Iz). cbn [q_cols q_records]. destruct (QF z Iz) as (A1 & A2 & A3 & A4).
    split; [apply result_good|]. split; [exact (good_columns_ok _ _ (nf_key d cat NF _ _ A1 A2))|]. destruct (good_columns_ok _ _ (nf_key d cat NF _ _ A1 A2)) as [Nk _]. split.
    + split; [intros X; apply A3; destruct (y_records z); [reflexivity|discriminate X]|]. intros r Ir. apply in_map_iff in Ir as (r0 & <- & Ir). destruct (A4 r0 Ir) as [L4 R4]. split.
      * intros X. apply Nk. destruct r0; [|discriminate X]. destruct (y_pkey z); [reflexivity|discriminate L4].
      * intros l Il. apply in_map_iff in Il as (u & <- & Iu). apply lit_read. apply R4. exact Iu.
    + intros r Ir. apply in_map_iff in Ir as (r0 & <- & Ir). rewrite map_length. exact (proj1 (A4 r0 Ir)).
  - split; [|intros s Is; exact (proj1 (PJ s Is))]. intros ->. destruct (all_some_in _ _ _ Ej) as [L _]. assert (I0 : In n0 nums) by (rewrite En; left; reflexivity). apply Nm in I0 as (qv & m & [F1 F2] & Ik0).
    pose proof F1 as F1'. apply nth_error_In, in_map_iff in F1 as (x & <- & Ix). destruct (QF x Ix) as (Ix1 & Ix2 & _). pose proof F2 as F2'. cbn [valued map_squery y_table y_pkey y_extended] in F2. destruct (subset_good _ _ _ _ CO Ix1 _ _ F2) as [G _].
    pose proof (g_nonempty _ _ _ _ _ G (t_id t) Ik0) as Gn. destruct (get_joins (t_id t) m) as [|j js] eqn:Ejs; [congruence|].
    assert (X : In j (get_joins (t_id t) (s_joins ss))) by (apply J; exists n0, (valued d x), m; split; [split; assumption|rewrite Ejs; left; reflexivity]). destruct (get_joins (t_id t) (s_joins ss)); [destruct X|discriminate L].
  - apply (good_table_tid _ _ (nf_table d cat NF t It)).
  - apply good_columns_ok, (nf_key d cat NF t k It Ik).
  - apply good_columns_ok, (nf_columns d cat NF t It).
  - rewrite !map_map. cbn [map_values fst snd]. constructor.
    + intros X. apply in_map_iff in X as (p & X & _). vm_compute in X. discriminate X.
    + apply (combine_nodup (fun n => snd (result_name (S n)))); [|exact Nd]. intros a b E. assert (X : result_name (S a) = result_name (S b)) by (unfold result_name in *; cbn [snd] in E; rewrite E; reflexivity). apply result_name_inj in X. lia.
  - rewrite !map_map. cbn [map_values fst snd]. intros n [<-|In_]; [apply (nf_pkey d cat NF t It)|]. apply in_map_iff in In_ as (p & <- & _). apply (co_results _ CO t _ It).
  - intros s Is. exact (proj2 (PJ s Is)).
Qed.
(** The text of the query and what it selects. *)
Lemma text_query t k ss q : In t (c_tables cat) -> t_pkey t = Some k -> add_subsets cat qs empty_subsetter = Found ss -> table_query cat ss (t_id t) = Ok q ->
  read_query d (query_text d q) = Some (map_query (literal_value d) q).
Proof.
  intros It Ik Es Eq. pose proof (query_read d _ (table_query_fits t k ss q It Ik Es Eq)) as H. rewrite !map_query_map in H. cbn [fst snd] in H. rewrite map_query_id in H. exact H.
Qed.
Lemma text_rows : exists ss sv, add_subsets cat qs empty_subsetter = Found ss /\ add_subsets cat (map (valued d) qs) empty_subsetter = Found sv
  /\ forall t k, In t (c_tables cat) -> t_pkey t = Some k -> subset_query d cat ss (t_id t) <> Panic
     /\ (forall s, subset_query d cat ss (t_id t) = Ok s -> exists q, read_query d s = Some q /\ sq_table q = t_id t /\ sq_key q = k /\ sq_columns q = dumped_columns t)
     /\ forall D r, (exists s, subset_query d cat ss (t_id t) = Ok s /\ selects d D s r) <-> dumped D cat sv (t_id t) r.
Proof.
  destruct subsetters as (ss & E1 & E2 & DS). exists ss, (map_subsetter f ss). split; [exact E1|]. split; [exact E2|]. intros t k It Ik.
  pose proof (table_query_map f cat ss (t_id t)) as M. unfold subset_query. split; [|split].
  - destruct (table_query cat ss (t_id t)) as [q| |] eqn:Eq; cbn [bindr] in *; try discriminate. intros _. destruct (get_nums (t_id t) (s_nums ss)) as [|n0 ns] eqn:En.
    + unfold table_query in Eq. rewrite (schema_fixed cat CO t It), (find_table_in cat CO t It), Ik, En in Eq. discriminate Eq.
    + destruct (SubsetRows.query_ok cat CO CL (fun _ _ => True) (map (valued d) qs) (map_subsetter f ss) valued_ok DS t k It Ik) as (sq & X & _); [|congruence].
      destruct DS as (_ & _ & Nm & _). destruct (proj1 (Nm (t_id t) n0)) as (q & m & Fd & I); [cbn [map_subsetter s_nums]; rewrite En; left; reflexivity|]. eauto.
  - intros s E. destruct (table_query cat ss (t_id t)) as [q| |] eqn:Eq; cbn [bindr] in E; try discriminate E. injection E as <-. exists (map_query (literal_value d) q). split; [exact (text_query t k ss q It Ik E1 Eq)|].
    unfold table_query in Eq. rewrite (schema_fixed cat CO t It), (find_table_in cat CO t It), Ik in Eq. destruct (get_nums (t_id t) (s_nums ss)); [discriminate Eq|].
    destruct (all_some (map (fun n => nth_error (s_results ss) n) (n :: l))); [|discriminate Eq]. destruct (all_some (map to_sql (get_joins (t_id t) (s_joins ss)))); [|discriminate Eq]. injection Eq as <-. repeat split.
  - intros D r. split.
    + intros (s & E & q' & R & A). destruct (table_query cat ss (t_id t)) as [q| |] eqn:Eq; cbn [bindr] in E, M; try discriminate E. injection E as <-. rewrite (text_query t k ss q It Ik E1 Eq) in R. injection R as <-.
      exists (map_query f q). split; [exact M|]. rewrite map_query_map in A. exact A.
    + intros (q' & E & A). rewrite M in E. destruct (table_query cat ss (t_id t)) as [q| |] eqn:Eq; cbn [bindr] in E; try discriminate E. injection E as <-. eexists. split; [cbn [bindr]; reflexivity|].
      exists (map_query (literal_value d) q). split; [exact (text_query t k ss q It Ik E1 Eq)|]. rewrite map_query_map. exact A.
Qed.
End Catalog.

(** ** Templates *)
Lemma read_whole {A} d (p : toks -> option (A * toks)) okm s x : Read d p ends okm s x -> okm [] -> exists ts, tokens d s = Some ts /\ p ts = Some (x, []).
Proof.
  intros R K. destruct (R []) as (ts & L & P); [split; exact I|]. rewrite app_nil_r in L. exists ts. split; [apply lexed_tokens; exact L|]. specialize (P [] K). rewrite app_nil_r in P. exact P.
Qed.
Lemma template_names d i cols : good_table d i -> good_columns d cols ->
  (exists ts, tokens d (full_name d i) = Some ts /\ table_ref d ts = Some (i, []))
  /\ exists ts, tokens d (join (B", ") (map (fun c => full_name d i ++ B"." ++ quote_identifier d c) cols)) = Some ts /\ column_refs d ts = Some (map (fun c => (i, c)) cols, []).
Proof.
  intros G C. apply good_table_tid in G. apply good_columns_ok in C as [N C]. split.
  - apply (read_whole d (table_ref d) nodot); [apply table_ref_read; exact G|reflexivity].
  - apply (read_whole d (column_refs d) nocomma); [|split; reflexivity]. apply (columns_read d i cols (B", ")); [apply fixed_comma|apply comma_ends|exact G|exact N|exact C].
Qed.

(** ** The rows needed *)
Lemma text_needed d cat qs ss D t k r : catalog_ok cat -> closed cat -> names_fit d cat -> queries_fit d cat qs -> db_ok cat D ->
  add_subsets cat qs empty_subsetter = Found ss -> In t (c_tables cat) -> t_pkey t = Some k ->
  ((exists s, subset_query d cat ss (t_id t) = Ok s /\ selects d D s r) -> needed D cat (map (valued d) qs) (t_id t) r)
  /\ ((forall q, In q qs -> (y_extended q = false /\ entered_once cat (t_id (y_table q))) \/ tree cat (t_id (y_table q))) ->
      needed D cat (map (valued d) qs) (t_id t) r -> exists s, subset_query d cat ss (t_id t) = Ok s /\ selects d D s r).
Proof.
  intros CO CL NF QF OK E It Ik. destruct (text_rows d cat CO CL NF qs QF) as (ss' & sv & E1 & E2 & H). rewrite E in E1. injection E1 as <-. destruct (H t k It Ik) as (_ & _ & R). specialize (R D r).
  pose proof (valued_ok d cat qs QF) as Q. assert (K : keyed cat (t_id t)) by (exists t, k; auto). split.
  - intros S. apply (sound cat CO CL D OK (map (valued d) qs) Q sv E2 (t_id t) r K). apply R. exact S.
  - intros Sh N. apply R. apply (complete cat CO CL D OK (map (valued d) qs) Q sv E2 (t_id t) r); [|exact K|exact N]. intros q Iq. apply in_map_iff in Iq as (x & <- & Ix). exact (Sh x Ix).
Qed.
