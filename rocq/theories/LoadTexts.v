(** The files of a dump are read as statements. *)
From Coq Require Import Lia ZifyBool ZifyNat.
From Verif Require Import GoStr GoStrFacts ModelSq SpecSql SqFacts SpecInsert SpecTokens TokenFacts TokenReads SpecDdl ModelCatalog ModelCache ModelDdl ModelDiff ModelDiffSql
  ModelDdlText SpecDdlText DdlTokens DdlStatements SpecDiff DiffLookup SpecApply ModelDump SpecLoad.

(** ** What is assumed of a catalog, all in one place *)
Record restorable_table (d : dialect) (cat : catalog) (s : bytes) (t : table) : Prop := {
  rt_plain : tb_sql t = [] /\ tb_virtual t = false /\ plain_name d (tb_name t) /\ one_line s /\ one_line (tb_name t);
  rt_columns : tb_columns t <> [] /\ NoDup (map col_name (tb_columns t));
  rt_column : forall c, In c (tb_columns t) ->
    col_ignore c = false /\ (col_generated c = true -> col_expr c <> [])
    /\ writable_column d (ct_collation cat) false no_reference c
    /\ (d = Postgres -> uses_sequence (text d (col_default c)) = false)
    /\ (d = MySQL -> col_autoincrement c = true ->
          (forall c', In c' (tb_columns t) -> col_autoincrement c' = true -> c' = c)
          /\ exists k l, In k (tb_constraints t) /\ primary k /\ con_columns k = col_name c :: l);
  rt_constraint : forall c, In c (tb_constraints t) ->
    con_ignore c = false /\ con_notvalid c = false /\ (con_schema c, con_table c) = (s, tb_name t) /\ con_name c <> []
    /\ writable_constraint d (ct_current cat) c /\ (d = MySQL -> primary c -> con_name c = B"PRIMARY")
    /\ (unique_key c \/ foreign c -> among t (con_columns c));
  rt_primary : forall a b, In a (tb_constraints t) -> In b (tb_constraints t) -> primary a -> primary b -> a = b;
  rt_index : forall i, In i (tb_indexes t) ->
    (ix_schema i, ix_table i) = (s, tb_name t) /\ writable_index d i
    /\ (forall n, In n (ix_columns i) -> is_expression n = true \/ In n (map col_name (tb_columns t))) /\ among t (ix_include i)
}.
Definition refers_back (cat : catalog) : Prop :=
  forall l1 s l2 t c, ct_schemas cat = l1 ++ s :: l2 -> In t (sc_tables s) -> In c (tb_constraints t) -> foreign c ->
    exists s' u, In s' (l1 ++ [s]) /\ In u (sc_tables s') /\ target (ct_current cat) c = (sc_name s', tb_name u)
      /\ among u (con_refcolumns c) /\ refers_to_unique u (con_refcolumns c).
Record restorable (d : dialect) (cat : catalog) : Prop := {
  rs_tables : unique_tables (ct_schemas cat);
  rs_schemas : forall s, In s (ct_schemas cat) -> sc_name s <> [] /\ plain_name d (sc_name s)
    /\ (d = SQLServer -> ~ exists a b, sc_name s = a ++ squote :: squote :: b);
  rs_names : NoDup (catalog_names d cat);
  rs_table : forall s t, In (s, t) (catalog_tables cat) -> restorable_table d cat s t;
  rs_order : d = MySQL \/ refers_back cat
}.

Lemma regular_restorable d cat : existing d cat -> regular d cat -> restorable d cat.
Proof.
  intros E G. split; [exact (ex_tables _ _ E)|exact (ex_schemas _ _ E)|exact (ex_names _ _ E)| |].
  - intros s t H. pose proof (ex_table _ _ E s t H) as T. split.
    + destruct (et_plain _ _ _ _ T) as (A1 & A2 & A3). destruct (rg_lines _ _ G s t H) as (L1 & L2). split; [exact A1|]. split; [exact A2|]. split; [exact A3|]. split; [exact L1|exact L2].
    + exact (et_columns _ _ _ _ T).
    + intros c Hc. destruct (et_column _ _ _ _ T c Hc) as (A1 & A2 & A3 & A4). split; [exact A1|]. split; [exact A2|]. split; [exact A3|].
      split; [intros Dp; exact (rg_sequence _ _ G Dp s t c H Hc)|]. intros Dm Ac. split; [exact (proj1 (A4 Dm Ac))|exact (rg_auto _ _ G Dm s t c H Hc Ac)].
    + intros c Hc. destruct (et_constraint _ _ _ _ T c Hc) as (A1 & A2 & A3 & A4 & A5 & A6). split; [exact A1|]. split; [exact (rg_valid _ _ G s t c H Hc)|]. repeat (split; [assumption|]). assumption.
    + exact (et_primary _ _ _ _ T).
    + exact (et_index _ _ _ _ T).
  - destruct (rg_order _ _ G) as [M|O]; [left; exact M|right]. intros l1 s l2 t c Es Ht Hc F.
    assert (Hs : In s (ct_schemas cat)) by (rewrite Es; apply in_or_app; right; left; reflexivity).
    assert (Hi : In (sc_name s, t) (catalog_tables cat)) by (apply in_flat_map; exists s; split; [exact Hs|apply in_map; exact Ht]).
    destruct (ex_targets _ _ E _ t c Hi Hc F) as (s' & u & Hu & Et & A & Q). specialize (O l1 s l2 t c Es Ht Hc F). rewrite Et in O. cbn [fst] in O.
    apply in_flat_map in Hu as (x & Hx & Hu). apply in_map_iff in Hu as (u' & Eu & Hu). injection Eu as <- <-.
    exists x, u'. split; [|split; [exact Hu|split; [exact Et|split; [exact A|exact Q]]]].
    apply in_map_iff in O as (y & Ey & Hy). assert (y = x) as <-; [|exact Hy].
    assert (Hy' : In y (ct_schemas cat)) by (rewrite Es; apply in_app_or in Hy as [Hy|[<-|[]]]; apply in_or_app; [left; exact Hy|right; left; reflexivity]).
    pose proof (proj1 (ex_tables _ _ E)) as N. revert N Hx Hy' Ey. clear. generalize (ct_schemas cat). intros l N Hx Hy Ey. induction l as [|z l IH]; [destruct Hx|]. cbn [map] in N. apply NoDup_cons_iff in N as (Nz & N).
    destruct Hx as [->|Hx], Hy as [->|Hy]; [reflexivity| | |exact (IH N Hx Hy)]; exfalso; apply Nz; [rewrite <- Ey|rewrite Ey]; apply in_map; assumption.
Qed.

(** ** Comments *)
Inductive clexed (d : dialect) : bytes -> toks -> Prop :=
| clexed_nil : clexed d [] []
| clexed_comment s r ts : strip_prefix (B"-- ") s = Some r -> clexed d (next_line d r) ts -> clexed d s ts
| clexed_one s ts r us : strip_prefix (B"-- ") s = None -> lex_one d s = Some (ts, r) -> clexed d r us -> clexed d s (ts ++ us).
Lemma next_line_short d s : List.length (next_line d s) <= List.length s.
Proof. induction s as [|c s IH]; [cbn; lia|]. cbn [next_line]. destruct (ends_line d c); cbn [List.length]; lia. Qed.
Lemma clexed_tokens d s ts : clexed d s ts -> file_tokens d s = Some ts.
Proof.
  unfold file_tokens. intros H. assert (G : forall n, List.length s <= n -> lex_file n d s = Some ts); [|apply G; lia].
  induction H as [|s r ts E H IH|s ts r us E L H IH]; intros n Ln.
  - destruct n; reflexivity.
  - pose proof (proj1 (strip_prefix_Some _ _ _) E) as Es. destruct s as [|c s]; [discriminate Es|]. destruct n as [|n]; [cbn in Ln; lia|].
    cbn [lex_file]. rewrite E. apply IH. apply (f_equal (@List.length ascii)) in Es. rewrite app_length in Es. pose proof (next_line_short d r). cbn in Es, Ln. lia.
  - pose proof (lex_one_shorter _ _ _ _ L) as Sh. destruct s as [|c s]; [discriminate L|]. destruct n as [|n]; [cbn in Ln; lia|].
    cbn [lex_file]. rewrite E, L. cbn [andthen]. rewrite (IH n) by lia. reflexivity.
Qed.
(** Where a comment begins there is no token. *)
Lemma comment_no_token d s r : strip_prefix (B"-- ") s = Some r -> lex_one d s = None.
Proof. intros E. apply (proj1 (strip_prefix_Some _ _ _)) in E as ->. destruct d; reflexivity. Qed.
Lemma lexed_clexed d s ts r us : lexed d s ts r -> clexed d r us -> clexed d s (ts ++ us).
Proof.
  intros L. induction L as [s|s ts r ts' r' E L IH]; intros C; [exact C|]. rewrite <- app_assoc. apply (clexed_one d s ts r); [|exact E|exact (IH C)].
  destruct (strip_prefix (B"-- ") s) as [x|] eqn:P; [|reflexivity]. rewrite (comment_no_token d s x P) in E. discriminate E.
Qed.

(** A text and the statements in it, whatever follows. *)
Definition CClosed (d : dialect) (s : bytes) (ts : toks) : Prop := forall b us, clexed d b us -> clexed d (s ++ b) (ts ++ us).
Definition noted (d : dialect) (s : bytes) (l : list statement) : Prop :=
  exists tss ls, CClosed d s (concat tss) /\ Forall2 (fun ts st => ts <> [] /\ forall more, read_statement d (ts ++ more) = Some (st, more)) tss ls /\ l = concat ls.
Lemma noted_scripted d s l : scripted d s l -> noted d s l.
Proof. intros (tss & ls & C & F & E). exists tss, ls. split; [|split; assumption]. intros b us H. exact (lexed_clexed d _ _ b us (C b) H). Qed.
Lemma noted_app d s s' l l' : noted d s l -> noted d s' l' -> noted d (s ++ s') (l ++ l').
Proof.
  intros (tss & ls & C & F & ->) (tss' & ls' & C' & F' & ->). exists (tss ++ tss'), (ls ++ ls'). rewrite !concat_app.
  split; [intros b us H; rewrite <- !app_assoc; exact (C _ _ (C' b us H))|]. split; [apply Forall2_app; assumption|reflexivity].
Qed.
Lemma next_line_at d s b : one_line s -> next_line d (s ++ NL ++ b) = b.
Proof.
  intros [N1 N2]. induction s as [|c s IH]; [destruct d; reflexivity|]. cbn [app next_line].
  assert (ends_line d c = false) as ->.
  { unfold ends_line. destruct (ceqb_spec c LF) as [E|_]; [contradiction N1; left; exact E|]. destruct (ceqb_spec c CR) as [E|_]; [contradiction N2; left; exact E|]. destruct d; reflexivity. }
  apply IH; [intros Z; apply N1; right; exact Z|intros Z; apply N2; right; exact Z].
Qed.
Lemma noted_comment d s : one_line s -> noted d (B"-- " ++ s ++ NL) [].
Proof.
  intros H. exists [], []. split; [|split; [constructor|reflexivity]]. intros b us L. rewrite <- !app_assoc. apply (clexed_comment d _ (s ++ NL ++ b)).
  - apply strip_prefix_Some. reflexivity.
  - rewrite (next_line_at d s b H). exact L.
Qed.
Lemma noted_read d s l : noted d s l -> read_file d s = Some l.
Proof.
  intros (tss & ls & C & F & ->). specialize (C [] [] (clexed_nil d)). rewrite !app_nil_r in C. apply clexed_tokens in C. unfold read_file. rewrite C. cbn [andthen].
  assert (Ln : List.length tss <= List.length (concat tss)).
  { clear C. induction F as [|ts st tss ls [N _] F IH]; [cbn; lia|]. cbn [concat List.length]. rewrite app_length. destruct ts; [congruence|]. cbn [List.length]. lia. }
  revert Ln. generalize (List.length (concat tss)). clear C. induction F as [|ts st tss ls [N R] F IH]; intros n Ln; [destruct n; reflexivity|].
  cbn [concat List.length] in *. destruct n as [|n]; [lia|]. destruct ts as [|t ts]; [congruence|]. cbn [app read_all]. specialize (R (concat tss)). cbn [app] in R. unfold toks in *. rewrite R. cbn [andthen]. rewrite (IH n ltac:(lia)). reflexivity.
Qed.

(** ** Several texts *)
Lemma noted_nil d : noted d [] [].
Proof. apply noted_scripted, scripted_nil. Qed.
Lemma noted_flat {A} d (f : A -> bytes) (g : A -> list statement) l : (forall a, In a l -> noted d (f a) (g a)) -> noted d (flat_map f l) (flat_map g l).
Proof.
  induction l as [|a l IH]; intros H; [apply noted_nil|]. cbn [flat_map]. apply noted_app; [apply H; left; reflexivity|apply IH; intros b Hb; apply H; right; exact Hb].
Qed.
Lemma noted_put d buf s l l' : noted d buf l -> noted d s l' -> noted d (put_text buf s) (l ++ l').
Proof.
  intros H H'. unfold put_text. apply (noted_app d _ _ _ _ H). change l' with ([] ++ l'). apply noted_app; [|exact H'].
  unfold opt. destruct (given buf); [apply noted_scripted, scripted_blank|apply noted_nil].
Qed.
Lemma noted_texts d l ls : Forall2 (noted d) l ls -> noted d (put_texts l) (concat ls).
Proof.
  intros F. unfold put_texts. assert (G : forall buf m, noted d buf m -> noted d (fold_left put_text l buf) (m ++ concat ls)).
  { induction F as [|s m' l ls H F IH]; intros buf m Hb; cbn [fold_left concat]; [rewrite app_nil_r; exact Hb|]. rewrite app_assoc. apply IH. apply noted_put; assumption. }
  exact (G [] [] (noted_nil d)).
Qed.

(** ** The statements of a dump *)
Lemma filter_all {A} (f : A -> bool) l : (forall a, In a l -> f a = true) -> filter f l = l.
Proof. induction l as [|a l IH]; intros H; [reflexivity|]. cbn [filter]. rewrite (H a (or_introl eq_refl)), IH; [reflexivity|]. intros b Hb. apply H. right. exact Hb. Qed.
Section Files.
Context (d : dialect) (cat : catalog).
Hypothesis D : In d [Postgres; MySQL; SQLServer].
Hypothesis R : restorable d cat.
Notation cur := (ct_current cat).
Notation coll := (ct_collation cat).
Local Notation no_types := (fun _ : schema => (@nil enum, @nil domain)).

Lemma not_other : d <> Other.
Proof. destruct D as [<-|[<-|[<-|[]]]]; discriminate. Qed.
Lemma in_tables s t : In s (ct_schemas cat) -> In t (sc_tables s) -> In (sc_name s, t) (catalog_tables cat).
Proof. intros Hs Ht. apply in_flat_map. exists s. split; [exact Hs|]. apply in_map. exact Ht. Qed.
Lemma tables_in e : In e (catalog_tables cat) -> exists s, In s (ct_schemas cat) /\ In (snd e) (sc_tables s) /\ fst e = sc_name s.
Proof. intros H. apply in_flat_map in H as (s & Hs & H). apply in_map_iff in H as (t & <- & Ht). exists s. auto. Qed.

(** The constraints that are created with a table. *)
Definition first_constraints (t : table) : list constraint := listed_constraints d false (tb_constraints t).
Definition with_table (c : constraint) : bool := beqb (con_type c) PRIMARY_KEY && (is d MySQL || is d SQLServer).
Definition create_stmt (e : bytes * table) : statement :=
  CreateTable (path_of (qualify cur (fst e) (tb_name (snd e)))) (map (column_meant d coll false no_reference) (tb_columns (snd e)))
    (map (constraint_meant d cur) (first_constraints (snd e))).
Definition index_stmt (e : bytes * table) (i : index) : statement :=
  CreateIndex (index_meant d (Some (qualify cur (fst e) (tb_name (snd e)))) false i).
Definition add_stmt (e : bytes * table) (c : constraint) : statement :=
  AlterTable (path_of (qualify cur (fst e) (tb_name (snd e)))) (AAddConstraint (constraint_meant d cur c) false).

Lemma first_in t c : In c (first_constraints t) -> In c (tb_constraints t) /\ primary c.
Proof.
  unfold first_constraints. destruct D as [<-|[<-|[<-|[]]]]; cbn [listed_constraints].
  - intros [].
  - intros H. destruct (filter _ (tb_constraints t)) as [|x l] eqn:E; [destruct H|]. destruct H as [<-|[]].
    assert (In x (filter (fun c => beqb (con_type c) PRIMARY_KEY && negb (con_ignore c)) (tb_constraints t))) as Hx by (rewrite E; left; reflexivity).
    apply filter_In in Hx as (H1 & H2). apply andb_true_iff in H2 as (H2 & _). apply beqb_eq in H2. split; [exact H1|exact H2].
  - intros H. destruct (filter _ (tb_constraints t)) as [|x l] eqn:E; [destruct H|]. destruct H as [<-|[]].
    assert (In x (filter (fun c => beqb (con_type c) PRIMARY_KEY && negb (con_ignore c)) (tb_constraints t))) as Hx by (rewrite E; left; reflexivity).
    apply filter_In in Hx as (H1 & H2). apply andb_true_iff in H2 as (H2 & _). apply beqb_eq in H2. split; [exact H1|exact H2].
Qed.
(** A table with only these constraints. *)
Definition bare (t : table) : table :=
  Table (tb_schema t) (tb_name t) (tb_sql t) (tb_virtual t) (tb_columns t) (first_constraints t) (tb_indexes t) (tb_ignore t).
Lemma primary_type c : primary c -> beqb (con_type c) PRIMARY_KEY = true /\ beqb (con_type c) FOREIGN_KEY = false.
Proof. intros E. unfold primary in E. rewrite E. split; reflexivity. Qed.
Lemma bare_constraints t : (forall c, In c (tb_constraints t) -> con_ignore c = false) -> table_constraints d (bare t) = first_constraints t.
Proof.
  intros H. unfold table_constraints. cbn [bare tb_constraints]. apply filter_all. intros c Hc. destruct (first_in t c Hc) as (Hi & P). rewrite (H c Hi). destruct (primary_type c P) as (P1 & P2).
    destruct D as [<-|[<-|[<-|[]]]]; rewrite P2; reflexivity.
Qed.
Lemma first_first t : (forall c, In c (tb_constraints t) -> con_ignore c = false) -> listed_constraints d true (first_constraints t) = first_constraints t.
Proof.
  intros H. rewrite listed_is. pose proof (bare_constraints t H) as E. unfold table_constraints in E. cbn [bare tb_constraints] in E. exact E.
Qed.
Lemma all_columns s t : restorable_table d cat s t -> table_columns t = tb_columns t.
Proof.
  intros T. unfold table_columns. apply filter_all. intros c Hc. destruct (rt_column _ _ _ _ T c Hc) as (I & G & _). rewrite I. cbn. destruct (col_generated c); [|reflexivity].
  destruct (col_expr c); [exfalso; apply G; reflexivity|reflexivity].
Qed.
Lemma plain_place e : In e (catalog_tables cat) -> plain_name d (fst e) /\ plain_name d (tb_name (snd e)) /\ tb_schema (snd e) = fst e.
Proof.
  intros H. pose proof (rs_table _ _ R (fst e) (snd e) ltac:(destruct e; exact H)) as T. destruct (tables_in e H) as (s & Hs & Ht & E).
  destruct (rs_schemas _ _ R s Hs) as (_ & P & _). rewrite E. split; [exact P|]. split; [exact (proj1 (proj2 (proj2 (rt_plain _ _ _ _ T))))|].
  exact (proj2 (proj2 (rs_tables _ _ R) s Hs) _ Ht).
Qed.

Lemma noted_one st s : writable d cur coll no_refs s -> (d = MySQL -> forall q n, s <> QDropIndex q n) -> meant d cur coll no_refs s = Some st ->
  noted d (write_stmt d cur coll no_refs s) [st].
Proof.
  intros W N M. destruct (stmt_says d cur coll no_refs s not_other W N) as (st' & M' & S). rewrite M in M'. injection M' as <-.
  apply noted_scripted, scripted_one. exact S.
Qed.
Lemma noted_schema s : In s (ct_schemas cat) -> noted d (write_create_schema d (sc_name s)) [CreateSchema (sc_name s)].
Proof.
  intros Hs. destruct (rs_schemas _ _ R s Hs) as (_ & P & Q). apply (noted_one (CreateSchema (sc_name s)) (QCreateSchema (sc_name s))); [|discriminate|reflexivity].
  split; [|split; [exact P|exact Q]]. destruct D as [<-|[<-|[<-|[]]]]; cbn; auto.
Qed.
Lemma noted_table e : In e (catalog_tables cat) -> noted d (write_create_table d cur coll (snd e) false) [create_stmt e].
Proof.
  intros H. pose proof (rs_table _ _ R (fst e) (snd e) ltac:(destruct e; exact H)) as T. destruct (plain_place e H) as (P1 & P2 & P3).
  assert (I : forall c, In c (tb_constraints (snd e)) -> con_ignore c = false) by (intros c Hc; exact (proj1 (rt_constraint _ _ _ _ T c Hc))).
  assert (E : write_create_table d cur coll (snd e) false = write_stmt d cur coll no_refs (QCreateTable (qualify cur (fst e) (tb_name (snd e))) (bare (snd e)))).
  { cbn [write_stmt]. unfold write_create_table. cbn [bare tb_sql tb_schema tb_name tb_columns tb_constraints]. rewrite (first_first _ I). reflexivity. }
  rewrite E. apply noted_one; [|discriminate|].
  - cbn [writable bare tb_schema tb_name]. rewrite P3. split; [reflexivity|]. unfold writable_table. cbn [bare tb_sql tb_schema tb_name].
    split; [exact (proj1 (rt_plain _ _ _ _ T))|]. rewrite P3. split; [exact P1|]. split; [exact P2|].
    assert (Ec : table_columns (bare (snd e)) = tb_columns (snd e)) by exact (all_columns _ _ T). rewrite Ec.
    split; [exact (proj1 (rt_columns _ _ _ _ T))|]. split; [intros c Hc; exact (proj1 (proj2 (proj2 (rt_column _ _ _ _ T c Hc))))|].
    intros c Hc. rewrite (bare_constraints _ I) in Hc. apply first_in in Hc as (Hc & _). exact (proj1 (proj2 (proj2 (proj2 (proj2 (rt_constraint _ _ _ _ T c Hc)))))).
  - cbn [meant]. rewrite (bare_constraints _ I). assert (Ec : table_columns (bare (snd e)) = tb_columns (snd e)) by exact (all_columns _ _ T). rewrite Ec. reflexivity.
Qed.
Lemma noted_index e i : In e (catalog_tables cat) -> In i (tb_indexes (snd e)) -> noted d (write_create_index d cur i false) [index_stmt e i].
Proof.
  intros H Hi. pose proof (rs_table _ _ R (fst e) (snd e) ltac:(destruct e; exact H)) as T. destruct (plain_place e H) as (P1 & P2 & P3).
  destruct (rt_index _ _ _ _ T i Hi) as (L & W & _). injection L as L1 L2.
  apply (noted_one (index_stmt e i) (QCreateIndex (qualify cur (fst e) (tb_name (snd e))) i false)); [|discriminate|reflexivity].
  cbn [writable]. split; [apply qualify_plain; assumption|]. rewrite L1, L2. split; [reflexivity|exact W].
Qed.
Lemma noted_constraint e c : In e (catalog_tables cat) -> In c (tb_constraints (snd e)) -> noted d (add_text d cat c) [add_stmt e c].
Proof.
  intros H Hc. pose proof (rs_table _ _ R (fst e) (snd e) ltac:(destruct e; exact H)) as T. destruct (plain_place e H) as (P1 & P2 & P3).
  destruct (rt_constraint _ _ _ _ T c Hc) as (_ & _ & L & _ & W & _). injection L as L1 L2.
  assert (E : add_text d cat c = write_stmt d cur coll no_refs (QAddConstraint (qualify cur (fst e) (tb_name (snd e))) c false)).
  { unfold add_text, ModelDump.cur. rewrite L1, L2. cbn [write_stmt write_part table_of opt]. rewrite ?app_nil_r, <- ?app_assoc. reflexivity. }
  rewrite E. apply noted_one; [|discriminate|reflexivity]. cbn [writable]. split; [apply qualify_plain; assumption|]. split; [exact W|discriminate].
Qed.
Lemma noted_heading e : In e (catalog_tables cat) -> noted d (heading cat (snd e)) [].
Proof.
  intros H. pose proof (rs_table _ _ R (fst e) (snd e) ltac:(destruct e; exact H)) as T. destruct (plain_place e H) as (P1 & P2 & P3).
  destruct (rt_plain _ _ _ _ T) as (_ & _ & _ & O1 & O2). unfold heading. rewrite P3.
  assert (Op : forall b : bool, one_line (opt b (fst e ++ B".") ++ tb_name (snd e))).
  { intros b. unfold opt. destruct b; [|exact O2]. destruct O1 as (A1 & A2), O2 as (B1 & B2).
    split; intros Z; apply in_app_or in Z as [Z|Z]; auto; apply in_app_or in Z as [Z|[Z|[]]]; auto; discriminate Z. }
  pose proof (noted_comment d _ (Op (given (fst e) && negb (beqb (fst e) (ModelDump.cur cat))))) as N. rewrite <- app_assoc in N. exact N.
Qed.

(** ** The files *)
Definition indexes_of (e : bytes * table) : list statement := map (index_stmt e) (tb_indexes (snd e)).
Definition early_of (e : bytes * table) : list statement := map (add_stmt e) (filter (added_early d) (tb_constraints (snd e))).
Definition fkeys_of (e : bytes * table) : list statement := map (add_stmt e) (live_fkeys (snd e)).
Definition schema_tables (s : schema) : list (bytes * table) := map (pair (sc_name s)) (sc_tables s).
Lemma Forall2_flat {A X Y} (P : X -> Y -> Prop) (f : A -> list X) (g : A -> list Y) l :
  (forall a, In a l -> Forall2 P (f a) (g a)) -> Forall2 P (flat_map f l) (flat_map g l).
Proof. induction l as [|a l IH]; intros H; cbn [flat_map]; [constructor|]. apply Forall2_app; [apply H; left; reflexivity|apply IH; intros b Hb; apply H; right; exact Hb]. Qed.
Lemma Forall2_each {A X Y} (P : X -> Y -> Prop) (f : A -> X) (g : A -> Y) l :
  (forall a, In a l -> P (f a) (g a)) -> Forall2 P (map f l) (map g l).
Proof. induction l as [|a l IH]; intros H; cbn [map]; constructor; [apply H; left; reflexivity|apply IH; intros b Hb; apply H; right; exact Hb]. Qed.
Lemma concat_each {A X} (f : A -> X) l : concat (map (fun a => [f a]) l) = map f l.
Proof. induction l as [|a l IH]; [reflexivity|]. cbn. rewrite IH. reflexivity. Qed.
Lemma concat_flat {A X} (f : A -> list (list X)) l : concat (flat_map f l) = flat_map (fun a => concat (f a)) l.
Proof. induction l as [|a l IH]; [reflexivity|]. cbn. rewrite concat_app, IH. reflexivity. Qed.
Lemma flat_map_one {A X} (f : A -> X) l : flat_map (fun a => [f a]) l = map f l.
Proof. induction l as [|a l IH]; [reflexivity|]. cbn. rewrite IH. reflexivity. Qed.
Lemma map_flat {A X Y} (f : A -> list X) (g : X -> Y) l : map g (flat_map f l) = flat_map (fun a => map g (f a)) l.
Proof. induction l as [|a l IH]; [reflexivity|]. cbn. rewrite map_app, IH. reflexivity. Qed.

Lemma schema_read : read_file d (dump_schema d cat [] no_types) = Some (map (fun s => CreateSchema (sc_name s)) (ct_schemas cat) ++ map create_stmt (catalog_tables cat)).
Proof.
  apply noted_read. unfold dump_schema. cbn [map app].
  assert (E : map (fun s => CreateSchema (sc_name s)) (ct_schemas cat) ++ map create_stmt (catalog_tables cat)
    = concat (flat_map (fun s => [[CreateSchema (sc_name s)]]) (ct_schemas cat) ++ flat_map (fun s => map (fun e => [create_stmt e]) (schema_tables s)) (ct_schemas cat))).
  { rewrite concat_app, !concat_flat. rewrite <- (flat_map_one (fun s => CreateSchema (sc_name s))). f_equal. unfold catalog_tables. rewrite map_flat. apply flat_map_ext. intros s. symmetry. apply concat_each. }
  rewrite E. apply noted_texts, Forall2_app; apply Forall2_flat; intros s Hs.
  - unfold schema_texts. destruct (rs_schemas _ _ R s Hs) as (Nn & _). destruct (sc_name s) as [|c n] eqn:En; [congruence|]. cbn [given is_empty negb fst snd map app].
    constructor; [|constructor]. rewrite <- En. exact (noted_schema s Hs).
  - unfold table_texts. rewrite filter_all.
    + unfold schema_tables. rewrite map_map. apply Forall2_each. intros t Ht. exact (noted_table (sc_name s, t) (in_tables s t Hs Ht)).
    + intros t Ht. pose proof (rs_table _ _ R _ _ (in_tables s t Hs Ht)) as T. rewrite (proj1 (proj2 (rt_plain _ _ _ _ T))). reflexivity.
Qed.
Lemma indexes_read : read_file d (dump_indexes d cat) = Some (flat_map indexes_of (catalog_tables cat)).
Proof.
  apply noted_read. unfold dump_indexes.
  assert (E : flat_map indexes_of (catalog_tables cat) = concat (flat_map (fun s => map indexes_of (schema_tables s)) (ct_schemas cat))).
  { unfold catalog_tables. rewrite concat_flat. rewrite !flat_map_concat_map, concat_map. rewrite map_map. rewrite <- (map_map (fun s => map indexes_of (schema_tables s))).
    unfold schema_tables. induction (ct_schemas cat) as [|s l IH]; [reflexivity|]. cbn. rewrite concat_app, IH. reflexivity. }
  rewrite E. apply noted_texts, Forall2_flat. intros s Hs. unfold schema_tables. rewrite map_map. apply Forall2_each. intros t Ht.
  unfold index_text. change (indexes_of (sc_name s, t)) with ([] ++ indexes_of (sc_name s, t)). apply noted_app; [exact (noted_heading (sc_name s, t) (in_tables s t Hs Ht))|].
  unfold indexes_of. rewrite <- flat_map_one. apply noted_flat. intros i Hi. exact (noted_index (sc_name s, t) i (in_tables s t Hs Ht) Hi).
Qed.
Lemma all_ok_map {A X} (f : A -> result X) (g : A -> X) l : (forall a, In a l -> f a = Ok (g a)) -> all_ok f l = Ok (map g l).
Proof.
  induction l as [|a l IH]; intros H; [reflexivity|]. cbn [all_ok map]. rewrite (H a (or_introl eq_refl)). cbn [bindr]. rewrite IH; [reflexivity|]. intros b Hb. apply H. right. exact Hb.
Qed.
Definition schema_adds (s : schema) : list statement := flat_map early_of (schema_tables s) ++ flat_map fkeys_of (schema_tables s).
Lemma constraints_read : exists c, dump_constraints d cat = Ok c /\ read_file d c = Some (flat_map schema_adds (ct_schemas cat)).
Proof.
  unfold dump_constraints. assert (is d SQLite = false) as -> by (destruct D as [<-|[<-|[<-|[]]]]; reflexivity).
  set (g := fun s => map (constraint_text d cat) (sc_tables s) ++ map (fun t => heading cat t ++ flat_map (add_text d cat) (live_fkeys t)) (sc_tables s)).
  rewrite (all_ok_map _ g).
  2:{ intros s Hs. unfold constraint_texts. rewrite (all_ok_map _ (fun t => heading cat t ++ flat_map (add_text d cat) (live_fkeys t))); [reflexivity|].
      intros t Ht. unfold fkey_text. rewrite (get_foreign_keys_all _ s t (rs_tables _ _ R) Hs Ht). reflexivity. }
  cbn [bindr]. eexists. split; [reflexivity|]. apply noted_read.
  assert (E : flat_map schema_adds (ct_schemas cat) = concat (flat_map (fun s => map early_of (schema_tables s) ++ map fkeys_of (schema_tables s)) (ct_schemas cat))).
  { rewrite concat_flat. apply flat_map_ext. intros s. unfold schema_adds. rewrite concat_app, !flat_map_concat_map. reflexivity. }
  rewrite E, <- flat_map_concat_map. apply noted_texts, Forall2_flat. intros s Hs. unfold g, schema_tables. rewrite !map_map.
  apply Forall2_app; apply Forall2_each; intros t Ht; pose proof (in_tables s t Hs Ht) as Hi.
  - unfold constraint_text. change (early_of (sc_name s, t)) with ([] ++ early_of (sc_name s, t)). apply noted_app; [exact (noted_heading (sc_name s, t) Hi)|].
    unfold early_of. rewrite <- flat_map_one. apply noted_flat. intros c Hc. apply filter_In in Hc as (Hc & _). exact (noted_constraint (sc_name s, t) c Hi Hc).
  - change (fkeys_of (sc_name s, t)) with ([] ++ fkeys_of (sc_name s, t)). apply noted_app; [exact (noted_heading (sc_name s, t) Hi)|].
    unfold fkeys_of. rewrite <- flat_map_one. apply noted_flat. intros c Hc. apply filter_In in Hc as (Hc & _). exact (noted_constraint (sc_name s, t) c Hi Hc).
Qed.
End Files.
