(** Proofs about wipe. *)
From Verif Require Import GoStr GoStrFacts ModelSq SpecSql SqFacts ModelDdl ModelHistory ModelMigrate SpecInsert BatchText SqWitness ModelWipe SpecWipe CsvFields.

(** ** Texts *)
Definition path (cur s n : bytes) : list bytes := if negb (beqb s []) && negb (beqb s cur) then [s; n] else [n].
Definition ast (d : dialect) (cur : bytes) (o : obj) : dstmt :=
  let pm := existsb (dialect_eqb d) [Postgres; MySQL] in
  let pg := existsb (dialect_eqb d) [Postgres] in
  match o with
  | OView s n m => XView m (path cur s n) pm
  | OFk s t n => XFk (path cur s t) n pg
  | OTable s n _ => XTable (path cur s n) pm
  | ORoutine s n _ k => XRoutine (beqb (kind_text k) (B"PROCEDURE")) (path cur s n) pg
  | OEnum s n => XType (path cur s n) true
  | ODomain s n => XDomain (path cur s n) true
  | OExt n => XExt n true
  end.
Definition text (d : dialect) (cur : bytes) (o : obj) : bytes :=
  match o with
  | OView s n m => view_text d cur (s, n, m)
  | OFk s t n => fk_text d cur (s, t, n)
  | OTable s n _ => table_text d cur (s, n)
  | ORoutine s n _ k => routine_text d cur (s, n, kind_text k)
  | OEnum s n => enum_text d cur (s, n)
  | ODomain s n => domain_text d cur (s, n)
  | OExt n => ext_text d n
  end.
Lemma qualified_path d cur s n : qualified d cur s n = join (B".") (map (quote_identifier d) (path cur s n)).
Proof. unfold qualified, path. destruct (negb (beqb s []) && negb (beqb s cur)); cbn [map join]; [rewrite <- app_assoc|]; reflexivity. Qed.
Lemma read_name d n rest : plain_name d n -> delimited rest -> lex_ident d (quote_identifier d n ++ rest) = Some (n, rest).
Proof. intros [Hs Hq] Hd. apply denotes_name; assumption. Qed.
Lemma plain_denoted d n : plain_name d n -> denoted d n = n.
Proof.
  intros H. pose proof (read_name d n [] H I) as R. rewrite lex_quote_identifier in R by exact I. congruence.
Qed.
Lemma read_qualified d cur s n rest : plain_name d s -> plain_name d n -> delimited rest -> strip_prefix (B".") rest = None ->
  read_path d (qualified d cur s n ++ rest) = Some (path cur s n, rest).
Proof.
  intros Hs Hn Hd Hr. rewrite qualified_path. rewrite read_dotted; [|unfold path; destruct (_ && _); discriminate|exact Hd|exact Hr].
  f_equal. f_equal. unfold path. destruct (_ && _); cbn [map]; rewrite ?(plain_denoted d n Hn), ?(plain_denoted d s Hs); reflexivity.
Qed.
Lemma read_cascade_text d l rest : read_cascade (cascade d l ++ B";" ++ rest) = (existsb (dialect_eqb d) l, B";" ++ rest).
Proof. unfold cascade. destruct (existsb (dialect_eqb d) l); reflexivity. Qed.
Lemma cascade_delim d l rest : delimited (cascade d l ++ B";" ++ rest) /\ strip_prefix (B".") (cascade d l ++ B";" ++ rest) = None.
Proof. unfold cascade. destruct (existsb (dialect_eqb d) l); (split; [delim|reflexivity]). Qed.
Lemma read_drop_text d f cur s n l rest : plain_name d s -> plain_name d n ->
  read_drop d f (qualified d cur s n ++ cascade d l ++ B";" ++ [LF] ++ rest) = Some (f (path cur s n) (existsb (dialect_eqb d) l), rest).
Proof.
  intros Hs Hn. unfold read_drop. destruct (cascade_delim d l ([LF] ++ rest)) as [D1 D2].
  rewrite read_qualified by assumption. cbn [andthen]. rewrite read_cascade_text. cbv beta iota. unfold read_end. reflexivity.
Qed.
Lemma read_drop_always d f cur s n rest : plain_name d s -> plain_name d n ->
  read_drop d f (qualified d cur s n ++ B" CASCADE;" ++ [LF] ++ rest) = Some (f (path cur s n) true, rest).
Proof.
  intros Hs Hn. unfold read_drop. rewrite read_qualified by (try assumption; (delim || reflexivity)). reflexivity.
Qed.
Lemma read_text d cur o rest : (forall n, In n (names_of o) -> plain_name d n) -> read_dstmt d (text d cur o ++ rest) = Some (ast d cur o, rest).
Proof.
  intros H. destruct o as [s n m|s t n|s n p|s n a k|s n|s n|n]; cbn [names_of In] in H; cbn [text ast].
  - unfold view_text. rewrite <- !app_assoc. destruct m.
    + 
      rewrite <- (read_drop_text d (XView true) cur s n [Postgres; MySQL] rest) by auto. reflexivity.
    + rewrite <- (read_drop_text d (XView false) cur s n [Postgres; MySQL] rest) by auto. reflexivity.
  - unfold fk_text. rewrite <- !app_assoc. unfold read_dstmt.
    transitivity (let? (p, r) := read_path d (qualified d cur s t ++ B" DROP CONSTRAINT " ++ quote_identifier d n ++ cascade d [Postgres] ++ B";" ++ [LF] ++ rest) in
      let? r := strip_prefix (B" DROP CONSTRAINT ") r in let? (n, r) := lex_ident d r in let '(c, r) := read_cascade r in read_end (XFk p n c) r); [reflexivity|].
    rewrite read_qualified by (auto; (delim || reflexivity)). cbn [andthen]. rewrite strip_prefix_app. cbn [andthen].
    destruct (cascade_delim d [Postgres] ([LF] ++ rest)) as [D1 D2]. rewrite read_name by auto. cbn [andthen]. rewrite read_cascade_text. reflexivity.
  - unfold table_text. rewrite <- !app_assoc. rewrite <- (read_drop_text d XTable cur s n [Postgres; MySQL] rest) by auto. reflexivity.
  - unfold routine_text. rewrite <- !app_assoc. destruct (beqb (kind_text k) (B"PROCEDURE")).
    + rewrite <- (read_drop_text d (XRoutine true) cur s n [Postgres] rest) by auto. reflexivity.
    + rewrite <- (read_drop_text d (XRoutine false) cur s n [Postgres] rest) by auto. reflexivity.
  - unfold enum_text. rewrite <- !app_assoc. rewrite <- (read_drop_always d XType cur s n rest) by auto. reflexivity.
  - unfold domain_text. rewrite <- !app_assoc. rewrite <- (read_drop_always d XDomain cur s n rest) by auto. reflexivity.
  - unfold ext_text. rewrite <- !app_assoc. unfold read_dstmt.
    transitivity (let? (n, r) := lex_ident d (quote_identifier d n ++ B" CASCADE;" ++ [LF] ++ rest) in let '(c, r) := read_cascade r in read_end (XExt n c) r); [reflexivity|].
    rewrite read_name by (auto; delim). reflexivity.
Qed.

(** ** The list of statements *)
Definition sel_view d (l : list obj) (o : obj) := match o with OView s n _ => view_listed d l s n | _ => false end.
Definition sel_fk d (o : obj) := match o with OFk s _ _ => schema_listed d s | _ => false end.
Definition sel_table d (o : obj) := match o with OTable s n p => schema_listed d s && relation_listed d n && negb (dialect_eqb d Postgres && p) | _ => false end.
Definition sel_routine d (l : list obj) (ext : obj -> bool) (o : obj) := match o with ORoutine s n a k => schema_listed d s && routine_listed d l s n && negb (ext o) | _ => false end.
Definition sel_enum d (o : obj) := match o with OEnum s _ => schema_listed d s | _ => false end.
Definition sel_domain d (o : obj) := match o with ODomain s _ => schema_listed d s | _ => false end.
Definition sel_ext (o : obj) := match o with OExt n => negb (beqb n (B"plpgsql")) | _ => false end.

Lemma map_rows {R} (f : R -> bytes) (g : obj -> bytes) (row : obj -> list R) (sel : obj -> bool) l :
  (forall o, map f (row o) = if sel o then [g o] else []) -> map f (flat_map row l) = map g (filter sel l).
Proof.
  intros H. induction l as [|o l IH]; [reflexivity|]. cbn [flat_map filter]. rewrite map_app, IH, H. destruct (sel o); reflexivity.
Qed.
Lemma map_filter_rows {R} (f : R -> bytes) (g : obj -> bytes) (row : obj -> list R) (keep : R -> bool) (sel : obj -> bool) l :
  (forall o, map f (filter keep (row o)) = if sel o then [g o] else []) -> map f (filter keep (flat_map row l)) = map g (filter sel l).
Proof.
  intros H. induction l as [|o l IH]; [reflexivity|]. cbn [flat_map filter]. rewrite filter_app, map_app, IH, H. destruct (sel o); reflexivity.
Qed.
Definition if_pg {A} (d : dialect) (l : list A) : list A := match d with Postgres => l | _ => [] end.
Definition unless_sqlite {A} (d : dialect) (l : list A) : list A := match d with SQLite => [] | _ => l end.
Definition first_objs d (l : list obj) := filter (sel_view d l) l ++ unless_sqlite d (filter (sel_fk d) l).
Definition later_objs d ext (l : list obj) :=
  filter (sel_table d) l ++ unless_sqlite d (filter (sel_routine d l ext) l) ++ if_pg d (filter (sel_enum d) l) ++ if_pg d (filter (sel_domain d) l) ++ if_pg d (filter sel_ext l).
Definition pragma d (l : list obj) : list (option obj) := match d, filter (sel_table d) l with SQLite, _ :: _ => [None] | _, _ => [] end.
Definition all_items d ext l : list (option obj) := map Some (first_objs d l) ++ pragma d l ++ map Some (later_objs d ext l).
Definition item_text d cur (x : option obj) : bytes := match x with Some o => text d cur o | None => B"PRAGMA defer_foreign_keys = 1;" ++ [LF] end.
Definition item_ast d cur (x : option obj) : dstmt := match x with Some o => ast d cur o | None => XDefer end.

Lemma rows_views d cur l r : list_views d l = Some r -> map (view_text d cur) r = map (text d cur) (filter (sel_view d l) l).
Proof.
  unfold list_views. destruct (existsb _ l); [discriminate|]. intros [= <-].
  apply map_rows. intros [s n m|s t n|s n p|s n a k|s n|s n|n]; try reflexivity. cbn [sel_view]. destruct (view_listed _ _ _ _); reflexivity.
Qed.
Lemma rows_fks d cur l : map (fk_text d cur) (list_fks d l) = map (text d cur) (filter (sel_fk d) l).
Proof. apply map_rows. intros [s n m|s t n|s n p|s n a k|s n|s n|n]; try reflexivity. cbn [sel_fk]. destruct (schema_listed d s); reflexivity. Qed.
Lemma rows_tables d cur l : map (table_text d cur) (list_tables d l) = map (text d cur) (filter (sel_table d) l).
Proof. apply map_rows. intros [s n m|s t n|s n p|s n a k|s n|s n|n]; try reflexivity. cbn [sel_table]. destruct (_ && _); reflexivity. Qed.
Lemma rows_enums d cur l : map (enum_text d cur) (list_enums d l) = map (text d cur) (filter (sel_enum d) l).
Proof. apply map_rows. intros [s n m|s t n|s n p|s n a k|s n|s n|n]; try reflexivity. cbn [sel_enum]. destruct (schema_listed d s); reflexivity. Qed.
Lemma rows_domains d cur l : map (domain_text d cur) (list_domains d l) = map (text d cur) (filter (sel_domain d) l).
Proof. apply map_rows. intros [s n m|s t n|s n p|s n a k|s n|s n|n]; try reflexivity. cbn [sel_domain]. destruct (schema_listed d s); reflexivity. Qed.
Lemma rows_exts d cur l : map (ext_text d) (filter (fun x => negb (beqb x (B"plpgsql"))) (list_exts l)) = map (text d cur) (filter sel_ext l).
Proof. apply map_filter_rows. intros [s n m|s t n|s n p|s n a k|s n|s n|n]; try reflexivity. cbn [sel_ext filter]. destruct (negb _); reflexivity. Qed.
Lemma rows_routines d cur ext l r : list_routines d ext l = Some r -> map (routine_text d cur) r = map (text d cur) (filter (sel_routine d l ext) l).
Proof.
  unfold list_routines. destruct (existsb _ l); [discriminate|]. intros [= <-].
  apply map_rows. intros [s n m|s t n|s n p|s n a k|s n|s n|n]; try reflexivity. cbn [sel_routine]. destruct (_ && _); reflexivity.
Qed.
Lemma map_pg {A C} d (f : A -> C) l : map f (if_pg d l) = if_pg d (map f l).
Proof. destruct d; reflexivity. Qed.
Lemma map_unless {A C} d (f : A -> C) l : map f (unless_sqlite d l) = unless_sqlite d (map f l).
Proof. destruct d; reflexivity. Qed.
Lemma tables_nil d l : list_tables d l = [] <-> filter (sel_table d) l = [].
Proof.
  pose proof (rows_tables d [] l) as H. destruct (list_tables d l), (filter (sel_table d) l); try discriminate H; split; auto; discriminate.
Qed.
Lemma statements_items d cur ext l : d <> Other -> list_views d l <> None -> list_routines d ext l <> None ->
  statements d (introspect d cur ext l) = Some (map (item_text d cur) (all_items d ext l)).
Proof.
  intros Nd Hv Hr. unfold statements, introspect. cbn [q_schema q_views q_fks q_tables q_routines q_enums q_domains q_exts].
  destruct (list_views d l) as [v|] eqn:V1; [|contradiction]. destruct (list_routines d ext l) as [r|] eqn:R1; [|contradiction].
  pose proof (rows_views d cur l v V1) as V2. pose proof (rows_routines d cur ext l r R1) as R2.
  unfold all_items, first_objs, later_objs, pragma. rewrite !map_app, !map_map.
  change (fun x => item_text d cur (Some x)) with (text d cur). rewrite !map_unless, !map_pg. rewrite <- V2, <- rows_fks, <- rows_tables, <- R2, <- rows_enums, <- rows_domains, <- (rows_exts d cur l).
  rewrite <- !app_assoc.
  destruct d; try contradiction; cbn [unless_sqlite if_pg app map]; rewrite ?app_nil_r; try reflexivity.
  f_equal. f_equal. pose proof (tables_nil SQLite l) as T. destruct (list_tables SQLite l) as [|t ts] eqn:E1, (filter (sel_table SQLite) l) as [|o os] eqn:E2; try reflexivity.
  - destruct T as [T _]. specialize (T eq_refl). discriminate T.
  - destruct T as [_ T]. specialize (T eq_refl). discriminate T.
Qed.
Lemma item_read d cur x rest : (forall o n, x = Some o -> In n (names_of o) -> plain_name d n) -> read_dstmt d (item_text d cur x ++ rest) = Some (item_ast d cur x, rest).
Proof.
  destruct x as [o|]; intros H; cbn [item_text item_ast]; [apply read_text; intros n I; exact (H o n eq_refl I)|reflexivity].
Qed.
Lemma item_nonempty d cur x : item_text d cur x <> [].
Proof. destruct x as [[| | | | | |]|]; cbn; try discriminate; unfold view_text, routine_text; try destruct materialized; discriminate. Qed.
Lemma join_nonempty sep (a : bytes) l : a <> [] -> join sep (a :: l) <> [].
Proof. destruct l, a; cbn; try contradiction; discriminate. Qed.
Lemma script_read d cur xs : (forall o n, In (Some o) xs -> In n (names_of o) -> plain_name d n) ->
  read_script d (script (map (item_text d cur) xs)) = Some (map (item_ast d cur) xs).
Proof.
  intros H. unfold script. destruct xs as [|x xs]; [reflexivity|]. unfold read_script.
  destruct (join [LF] (map (item_text d cur) (x :: xs))) as [|c s] eqn:E; [exfalso; exact (join_nonempty _ _ _ (item_nonempty d cur x) E)|].
  rewrite <- E. rewrite <- (app_nil_r (join [LF] _)). rewrite (items_join (read_dstmt d) [LF] (item_text d cur) (item_ast d cur)); [reflexivity|discriminate|discriminate| |reflexivity].
  intros y r I _. apply item_read. intros o n -> In. exact (H o n I In).
Qed.

(** ** Objects *)
Lemma kind_eqb_spec a b : reflect (a = b) (kind_eqb a b).
Proof. destruct a, b; constructor; congruence. Qed.
Lemma obj_eqb_spec a b : reflect (a = b) (obj_eqb a b).
Proof.
  destruct a, b; cbn [obj_eqb]; try (constructor; discriminate);
  repeat match goal with
  | |- context [beqb ?x ?y] => destruct (beqb_spec x y) as [->|?]; cbn [andb]; [|constructor; congruence]
  | |- context [Bool.eqb ?x ?y] => destruct (Bool.eqb_spec x y) as [->|?]; cbn [andb]; [|constructor; congruence]
  | |- context [kind_eqb ?x ?y] => destruct (kind_eqb_spec x y) as [->|?]; cbn [andb]; [|constructor; congruence]
  end; constructor; reflexivity.
Qed.
Lemma obj_eqb_refl a : obj_eqb a a = true.
Proof. destruct (obj_eqb_spec a a); congruence. Qed.
Lemma existsb_obj o l : existsb (obj_eqb o) l = true <-> In o l.
Proof. rewrite existsb_exists. split; [intros (x & I & E); destruct (obj_eqb_spec o x) as [->|]; [exact I|discriminate E]|intros I; exists o; split; [exact I|apply obj_eqb_refl]]. Qed.

Lemma filter_one {A} (f : A -> bool) (a : A) l : NoDup l -> (forall x, In x l -> f x = true -> x = a) -> f a = true ->
  filter f l = [] /\ ~ In a l \/ filter f l = [a] /\ In a l.
Proof.
  induction l as [|x l IH]; intros N U Fa; [left; split; [reflexivity|auto]|]. inversion N as [|? ? N1 N2]; subst. cbn [filter].
  destruct (f x) eqn:E.
  - assert (X : x = a) by (apply U; [left; reflexivity|exact E]). subst x. right. split; [|left; reflexivity].
    destruct (IH N2 (fun y I => U y (or_intror I)) Fa) as [[-> _]|[_ I]]; [reflexivity|contradiction].
  - destruct (IH N2 (fun y I => U y (or_intror I)) Fa) as [[-> I]|[-> I]].
    + left. split; [reflexivity|]. intros [->|J]; [congruence|exact (I J)].
    + right. split; [reflexivity|right; exact I].
Qed.

Section Run.
Context (d : dialect) (k : deps) (cur : bytes) (l : list obj) (W : wipeable d k cur l).

Lemma path_name_path s n : (s = [] -> cur = []) -> path_name cur (path cur s n) = Some (s, n).
Proof.
  intros H. unfold path. destruct (beqb_spec s []) as [->|]; cbn [negb andb path_name]; [rewrite H; reflexivity|].
  destruct (beqb_spec s cur) as [->|]; reflexivity.
Qed.
Definition kept (o : obj) (l1 l2 : list obj) : Prop :=
  forall y, In y l1 -> y <> o -> dep k y o = false -> held k y = None -> owned y o = false -> In y l2.
Definition closed (l1 : list obj) : Prop := forall y h, In y l1 -> held k y = Some h -> In h l1.
Lemma held_none y : In y l -> (forall s n a x, y <> ORoutine s n a x) -> held k y = None.
Proof.
  intros I Nr. destruct (held k y) as [h|] eqn:E; [|reflexivity]. exfalso. assert (Dp : d = Postgres \/ d <> Postgres) by (destruct d; auto; right; discriminate). destruct Dp as [Ep|Np].
  - destruct (wp_held _ _ _ _ W _ _ I E Ep) as (_ & s & n & a & x & ->). exact (Nr _ _ _ _ eq_refl).
  - rewrite (wp_extless _ _ _ _ W Np) in E. discriminate E.
Qed.
(** Dropping an object that nothing holds back. *)
Lemma drop_works o l1 : In o l -> incl l1 l -> NoDup l1 -> (d = Postgres -> held k o = None) ->
  (forall y, In y l1 -> is_fk y = false) \/ (forall s n p, o <> OTable s n p) ->
  exists l2, drop d k (match d with Postgres => true | _ => existsb (dialect_eqb d) [MySQL] end) o l1 = Some l2
  /\ incl l2 l1 /\ NoDup l2 /\ ~ In o l2
  /\ kept o l1 l2 /\ (closed l1 -> closed l2).
Proof.
  intros Io Il N Hh Hb. unfold drop. set (wo := filter (fun x => negb (obj_eqb x o) && negb (owned x o)) l1).
  assert (Iw : forall y, In y wo <-> In y l1 /\ y <> o /\ owned y o = false).
  { intros y. unfold wo. rewrite filter_In. destruct (obj_eqb_spec y o), (owned y o); cbn [negb andb]; split; intros; intuition (try congruence; try discriminate). }
  assert (Nw : NoDup wo) by (apply NoDup_filter; exact N).
  assert (Fb : d = MySQL -> existsb (fun x => is_fk x && dep k x o) wo = false).
  { intros Em. destruct (existsb _ wo) eqn:E; [|reflexivity]. exfalso. apply existsb_exists in E as (y & Iy & Ey). apply andb_true_iff in Ey as [E1 E2]. apply Iw in Iy as (Iy & _).
    destruct y as [|s t n| | | | |]; try discriminate E1. destruct (wp_mysql _ _ _ _ W Em _ _ _ _ E2) as (s' & n' & p & ->).
    destruct Hb as [Hb|Hb]; [specialize (Hb _ Iy); discriminate Hb|exact (Hb _ _ _ eq_refl)]. }
  assert (Fs : d = SQLServer -> existsb (fun x => dep k x o) wo = false).
  { intros Em. destruct (existsb (fun x => dep k x o) wo) eqn:E; [|reflexivity]. exfalso. apply existsb_exists in E as (y & Iy & Ey). apply Iw in Iy as (Iy & _).
    destruct (wp_unbound _ _ _ _ W Em _ _ Ey) as (E1 & s' & n' & p & ->).
    destruct Hb as [Hb|Hb]; [specialize (Hb _ Iy); congruence|exact (Hb _ _ _ eq_refl)]. }
  assert (G : d <> Postgres -> exists l2, Some wo = Some l2 /\ incl l2 l1 /\ NoDup l2 /\ ~ In o l2 /\ kept o l1 l2 /\ (closed l1 -> closed l2)).
  { intros Nd. exists wo. split; [reflexivity|]. split; [intros y Iy; apply Iw in Iy; tauto|]. split; [exact Nw|]. split; [intros Iy; apply Iw in Iy; tauto|]. split; [intros y Iy H1 _ _ H2; apply Iw; auto|]. intros C y h Iy Hy. rewrite (wp_extless _ _ _ _ W Nd) in Hy. discriminate Hy. }
  assert (Hx : forall e, In (OExt e) l -> held k (OExt e) = None) by (intros e Ie; apply held_none; [exact Ie|discriminate]).
  pose proof (wp_kinds _ _ _ _ W _ Io) as Kd. destruct d eqn:Ed; try (apply G; discriminate); try (rewrite Fb by reflexivity; apply G; discriminate); try (rewrite Fs by reflexivity; apply G; discriminate).
  rewrite Hh by reflexivity. eexists. split; [reflexivity|].
  split; [intros y Iy; apply filter_In in Iy as [Iy _]; apply Iw in Iy; tauto|]. split; [apply NoDup_filter; exact Nw|].
  split; [intros Iy; apply filter_In in Iy as [Iy _]; apply Iw in Iy; tauto|].
  split.
  - intros y Iy H1 H2 H3 H4. apply filter_In. split; [apply Iw; auto|]. unfold gone_with, held_by. rewrite H2, H3. reflexivity.
  - intros C y h Iy Hy. apply filter_In in Iy as [Iy Gy]. apply Iw in Iy as (Iy & Hy1 & Hy2). unfold gone_with, held_by in Gy. rewrite Hy in Gy.
    apply negb_true_iff in Gy. apply orb_false_iff in Gy as [Gy G3]. apply orb_false_iff in Gy as [G1 G2].
    specialize (C _ _ Iy Hy). destruct (wp_held _ _ _ _ W _ _ (Il _ Iy) Hy eq_refl) as ((e & -> & Ie) & _).
    apply filter_In. split.
    + apply Iw. split; [exact C|]. split; [|reflexivity]. intros E. rewrite E, obj_eqb_refl in G2. discriminate G2.
    + unfold gone_with, held_by. rewrite G3, (Hx _ Ie). reflexivity.
Qed.
Lemma casc_pm : existsb (dialect_eqb d) [Postgres; MySQL] = match d with Postgres => true | _ => existsb (dialect_eqb d) [MySQL] end.
Proof. destruct d; reflexivity. Qed.

(** The word CASCADE is only looked at by Postgres. *)
Lemma drop_cascade c o l1 : (d = Postgres -> c = true) -> drop d k c o l1 = drop d k (match d with Postgres => true | _ => existsb (dialect_eqb d) [MySQL] end) o l1.
Proof. unfold drop. destruct d; try reflexivity. intros ->; reflexivity. Qed.

Definition droppable (o : obj) : Prop :=
  In o l /\ (d = Postgres -> held k o = None) /\ (d = Postgres -> match o with ORoutine _ _ _ Aggregate => False | _ => True end)
  /\ match o with OEnum _ _ | ODomain _ _ | OExt _ => d = Postgres | ORoutine _ _ _ _ | OFk _ _ _ => d <> SQLite | _ => True end.
Lemma named_same o x s n : match o with OFk _ _ _ | OExt _ => False | _ => True end -> schema_of o = s -> last (names_of o) [] = n ->
  named d (ast d cur o) s n x = true -> same_name d x o = true.
Proof.
  destruct o as [s0 n0 m|s0 t n0|s0 n0 p|s0 n0 a kd|s0 n0|s0 n0|n0]; cbn [schema_of names_of last ast]; intros Nf <- <-; try contradiction;
    destruct x as [s1 n1 m1|s1 t1 n1|s1 n1 p1|s1 n1 a1 k1|s1 n1|s1 n1|n1]; cbn [named same_name]; try discriminate; try (intros E; exact E).
  destruct d; auto. destruct kd, k1; auto.
Qed.
Lemma named_self o s n : match o with OFk _ _ _ | OExt _ => False | _ => True end -> schema_of o = s -> last (names_of o) [] = n -> named d (ast d cur o) s n o = true.
Proof.
  destruct o as [s0 n0 m|s0 t n0|s0 n0 p|s0 n0 a kd|s0 n0|s0 n0|n0]; cbn [schema_of names_of last ast]; intros Nf <- <-; try contradiction; cbn [named]; rewrite !beqb_refl; try reflexivity.
  destruct d; try reflexivity. destruct kd; reflexivity.
Qed.
Lemma exec_step o l1 : droppable o -> incl l1 l -> NoDup l1 -> (match o with OFk _ _ _ => In o l1 | _ => True end) ->
  (forall y, In y l1 -> is_fk y = false) \/ (forall s n p, o <> OTable s n p) ->
  exists l2, exec1 d k cur (ast d cur o) l1 = Some l2 /\ incl l2 l1 /\ NoDup l2 /\ ~ In o l2
  /\ kept o l1 l2 /\ (closed l1 -> closed l2).
Proof.
  intros (Io & Hh & Ha & Hd) Il N Hp Hb.
  pose proof (wp_kinds _ _ _ _ W _ Io) as Kd.
  assert (Al : allowed d (ast d cur o) = true).
  { destruct o as [s n m|s t n|s n p|s n a kd|s n|s n|n]; cbn [ast allowed]; destruct d; cbn [exists_in] in Kd; try contradiction; try reflexivity; try (subst m; reflexivity); try (exfalso; apply Hd; reflexivity); try discriminate Hd. }
  unfold exec1. rewrite Al.
  assert (Same : exists l2, Some l1 = Some l2 /\ incl l2 l1 /\ NoDup l2 /\ (~ In o l1 -> ~ In o l2) /\ kept o l1 l2 /\ (closed l1 -> closed l2)).
  { exists l1. split; [reflexivity|]. split; [intros y; auto|]. split; [exact N|]. split; [auto|]. split; [intros y Iy _ _ _ _; exact Iy|auto]. }
  assert (Nm : forall p c s n, match o with OFk _ _ _ | OExt _ => False | _ => True end -> schema_of o = s -> last (names_of o) [] = n -> p = path cur s n -> (d = Postgres -> c = true) ->
    exists l2, drop_named d k cur (ast d cur o) p c l1 = Some l2 /\ incl l2 l1 /\ NoDup l2 /\ ~ In o l2
    /\ kept o l1 l2 /\ (closed l1 -> closed l2)).
  { intros p c s n Nf Es En -> Hc. unfold drop_named. rewrite path_name_path.
    2:{ intros E. apply (wp_schemas _ _ _ _ W _ Io); [intros x ->; exact Nf|congruence]. }
    cbn [andthen].
    assert (F : fits (ast d cur o) o = true).
    { destruct o as [s0 n0 m|s0 t n0|s0 n0 p|s0 n0 a kd|s0 n0|s0 n0|n0]; try contradiction; cbn [ast fits]; try reflexivity; [destruct m; reflexivity|].
      destruct kd; try reflexivity. destruct d; try (destruct Kd as [Kd|Kd]; discriminate Kd); try contradiction. }
    destruct (filter_one (named d (ast d cur o) s n) o l1 N) as [[-> No]|[-> Iy]].
    - intros y Iy Ey. apply (wp_unique _ _ _ _ W); [apply Il; exact Iy|exact Io|]. exact (named_same o y s n Nf Es En Ey).
    - apply named_self; assumption.
    - destruct Same as (l2 & E & A1 & A2 & A3 & A4 & A5). exists l2. split; [exact E|]. split; [exact A1|]. split; [exact A2|]. auto.
    - rewrite F. rewrite drop_cascade by exact Hc. apply drop_works; assumption. }
  destruct o as [s n m|s t n|s n p|s n a kd|s n|s n|n]; cbn [ast].
  - apply (Nm _ _ s n); auto. intros ->; reflexivity.
  - rewrite path_name_path by (intros E; apply (wp_schemas _ _ _ _ W _ Io); [discriminate|exact E]). cbn [andthen].
    rewrite (proj2 (existsb_obj _ _) Hp). rewrite drop_cascade by (intros ->; reflexivity). apply drop_works; assumption.
  - apply (Nm _ _ s n); auto. intros ->; reflexivity.
  - apply (Nm _ _ s n); auto. intros ->; reflexivity.
  - apply (Nm _ _ s n); auto.
  - apply (Nm _ _ s n); auto.
  - destruct (existsb (obj_eqb (OExt n)) l1) eqn:E.
    + rewrite drop_cascade by (intros _; reflexivity). apply drop_works; assumption.
    + destruct Same as (l2 & E2 & A1 & A2 & A3 & A4 & A5). exists l2. split; [exact E2|]. split; [exact A1|]. split; [exact A2|]. split; [|auto]. apply A3. intros I. apply existsb_obj in I. congruence.
Qed.

Lemma run_rest os l1 : (forall o, In o os -> droppable o /\ is_fk o = false) -> incl l1 l -> NoDup l1 -> closed l1 ->
  (forall y, In y l1 -> is_fk y = false) \/ (forall o, In o os -> forall s n p, o <> OTable s n p) ->
  exists l2, exec_all d k cur (map (ast d cur) os) l1 = (true, l2) /\ incl l2 l1 /\ NoDup l2 /\ closed l2 /\ (forall o, In o os -> ~ In o l2)
  /\ (forall y, In y l1 -> (forall o, In o os -> y <> o /\ dep k y o = false /\ owned y o = false) -> held k y = None -> In y l2).
Proof.
  revert l1. induction os as [|o os IH]; intros l1 Ho Il N C Hb.
  - exists l1. split; [reflexivity|]. split; [intros y; auto|]. repeat split; auto.
  - destruct (Ho o (or_introl eq_refl)) as [Do Fo].
    destruct (exec_step o l1 Do Il N) as (l2 & E & I2 & N2 & D2 & K2 & C2).
    { destruct o; try exact I. discriminate Fo. }
    { destruct Hb as [Hb|Hb]; [left; exact Hb|right; apply Hb; left; reflexivity]. }
    destruct (IH l2) as (l3 & E3 & I3 & N3 & C3 & D3 & K3).
    + intros o' Io'. apply Ho. right. exact Io'.
    + intros y Iy. apply Il, I2, Iy.
    + exact N2.
    + exact (C2 C).
    + destruct Hb as [Hb|Hb]; [left; intros y Iy; apply Hb, I2, Iy|right; intros o' Io'; apply Hb; right; exact Io'].
    + exists l3. cbn [map exec_all]. rewrite E. split; [exact E3|]. split; [intros y Iy; apply I2, I3, Iy|]. split; [exact N3|]. split; [exact C3|]. split.
      * intros o' [<-|Io']; [intros J; apply D2, I3, J|apply D3; exact Io'].
      * intros y Iy Hy Hn. apply K3; [|intros o' Io'; apply Hy; right; exact Io'|exact Hn]. destruct (Hy o (or_introl eq_refl)) as (H1 & H2 & H3). apply K2; assumption.
Qed.
Lemma run_fks os l1 : NoDup os -> (forall o, In o os -> droppable o /\ is_fk o = true /\ In o l1) -> incl l1 l -> NoDup l1 -> closed l1 ->
  exists l2, exec_all d k cur (map (ast d cur) os) l1 = (true, l2) /\ incl l2 l1 /\ NoDup l2 /\ closed l2 /\ (forall o, In o os -> ~ In o l2)
  /\ (forall y, In y l1 -> (forall o, In o os -> y <> o /\ dep k y o = false) -> held k y = None -> In y l2).
Proof.
  revert l1. induction os as [|o os IH]; intros l1 No Ho Il N C.
  - exists l1. split; [reflexivity|]. split; [intros y; auto|]. repeat split; auto.
  - inversion No as [|? ? No1 No2]; subst. destruct (Ho o (or_introl eq_refl)) as (Do & Fo & Io). destruct o as [|s t n| | | | |]; try discriminate Fo.
    destruct (exec_step (OFk s t n) l1 Do Il N Io) as (l2 & E & I2 & N2 & D2 & K2 & C2); [right; discriminate|].
    destruct (IH l2 No2) as (l3 & E3 & I3 & N3 & C3 & D3 & K3).
    + intros o' Io'. destruct (Ho o' (or_intror Io')) as (Do' & Fo' & Io2). split; [exact Do'|]. split; [exact Fo'|].
      destruct o' as [|s' t' n'| | | | |]; try discriminate Fo'. apply K2; [exact Io2|intros X; rewrite X in Io'; contradiction| | |reflexivity].
      * destruct (dep k (OFk s' t' n') (OFk s t n)) eqn:Ed; [|reflexivity]. destruct (wp_fks _ _ _ _ W _ _ _ _ Ed).
      * apply held_none; [apply Il; exact Io2|discriminate].
    + intros y Iy. apply Il, I2, Iy.
    + exact N2.
    + exact (C2 C).
    + exists l3. cbn [map exec_all]. rewrite E. split; [exact E3|]. split; [intros y Iy; apply I2, I3, Iy|]. split; [exact N3|]. split; [exact C3|]. split.
      * intros o' [<-|Io']; [intros J; apply D2, I3, J|apply D3; exact Io'].
      * intros y Iy Hy Hn. apply K3; [|intros o' Io'; apply Hy; right; exact Io'|exact Hn]. destruct (Hy _ (or_introl eq_refl)) as (H1 & H2).
        apply K2; auto. destruct y; reflexivity.
Qed.

Lemma exec_all_app xs ys l1 : exec_all d k cur (xs ++ ys) l1 = let (ok, l2) := exec_all d k cur xs l1 in if ok then exec_all d k cur ys l2 else (false, l2).
Proof. revert l1. induction xs as [|x xs IH]; intros l1; [reflexivity|]. cbn [app exec_all]. destruct (exec1 d k cur x l1); [apply IH|reflexivity]. Qed.
Lemma schema_is_listed o : ~ overlooked d o -> (forall n, o <> OExt n) -> schema_listed d (schema_of o) = true.
Proof.
  intros H Ne. destruct d; try reflexivity; unfold schema_listed.
  - assert (X : schema_of o <> B"information_schema" /\ ~ (exists c r, schema_of o = B"pg" ++ c :: r)).
    { destruct o as [s n m|s t n|s n [|]|s n a [| | |]|s n|s n|n]; cbn [overlooked schema_of] in *; try (split; intros X; apply H; auto; fail); try (exfalso; apply H; exact I). exfalso. exact (Ne n eq_refl). }
    destruct X as [X1 X2]. destruct (beqb_spec (schema_of o) (B"information_schema")); [contradiction|]. cbn [negb andb]. apply negb_true_iff. unfold like_any.
    destruct (has_prefix (schema_of o) (B"pg")) eqn:E; [|reflexivity]. apply has_prefix_iff in E as (r & E). rewrite E in *. destruct r as [|c r]; [reflexivity|]. exfalso. apply X2. eauto.
  - apply negb_true_iff. destruct (one_of _ _) eqn:E; [|reflexivity]. exfalso. apply H. apply one_of_In in E.
    destruct o as [s n m|s t n|s n p|s n [|c a] [| | |]|s n|s n|n]; cbn [overlooked schema_of] in *; auto.
Qed.
Lemma like_any_false p n : ~ (exists c r, n = p ++ c :: r) -> like_any p n = false.
Proof.
  intros H. unfold like_any. destruct (has_prefix n p) eqn:E; [|reflexivity]. apply has_prefix_iff in E as (r & ->). cbn [andb]. apply Nat.ltb_ge. rewrite app_length.
  destruct r as [|c r]; [cbn; lia|]. exfalso. apply H. eauto.
Qed.
Lemma relation_is_listed o n : ~ overlooked d o -> (exists s m, o = OView s n m) \/ (exists s p, o = OTable s n p) -> relation_listed d n = true.
Proof.
  intros H Ho. destruct d; try reflexivity; unfold relation_listed.
  - rewrite like_any_false; [reflexivity|]. intros X. apply H. destruct Ho as [(s & m & ->)|(s & p & ->)]; exact X.
  - rewrite !like_any_false; [reflexivity| |]; intros X; apply H; destruct Ho as [(s & m & ->)|(s & p & ->)]; cbn [overlooked]; auto.
Qed.
Lemma lower_not_bad n : lower_name n -> reg_bad n = false.
Proof.
  intros (N0 & _ & Dot & Sp & Q). destruct n as [|c n]; [contradiction|]. unfold reg_bad. apply orb_false_iff. split.
  - destruct (ceqb_spec c (ascii_of_nat 34)) as [->|]; [|reflexivity]. exfalso. exact (Q n eq_refl).
  - destruct (existsb _ (c :: n)) eqn:E; [|reflexivity]. exfalso. apply existsb_exists in E as (x & Ix & E). destruct (Sp x Ix) as [S1 S2].
    apply orb_true_iff in E as [E|E]; [apply orb_true_iff in E as [E|E]|].
    + destruct (ceqb_spec x "."%char) as [->|]; [contradiction|discriminate E].
    + apply S2. lia.
    + destruct (ceqb_spec x " "%char) as [->|]; [|discriminate E]. apply S1. reflexivity.
Qed.
Lemma view_names s n m : d = Postgres -> In (OView s n m) l -> ~ overlooked d (OView s n m) -> reg_found l s n = true /\ reg_bad s = false /\ reg_bad n = false.
Proof.
  intros -> Io Ov. split; [|split].
  - destruct (reg_found l s n) eqn:E; [reflexivity|]. exfalso. apply Ov. left. intros [(_ & Ls & _) (_ & Ln & _)].
    assert (X : reg_found l s n = true); [|congruence]. unfold reg_found. apply existsb_exists. eexists. split; [exact Io|]. cbn. rewrite Ls, Ln, !beqb_refl. reflexivity.
  - destruct (reg_bad s) eqn:E; [|reflexivity]. exfalso. apply Ov. left. intros [Ls _]. apply lower_not_bad in Ls. congruence.
  - destruct (reg_bad n) eqn:E; [|reflexivity]. exfalso. apply Ov. left. intros [_ Ls]. apply lower_not_bad in Ls. congruence.
Qed.
Lemma view_free s n m : In (OView s n m) l -> ~ overlooked d (OView s n m).
Proof.
  intros Io. apply (wp_listed _ _ _ _ W _ Io). intros e He. destruct (dialect_eqb d Postgres) eqn:Ed.
  - assert (Ep : d = Postgres) by (destruct d; try discriminate Ed; reflexivity). destruct (wp_held _ _ _ _ W _ _ Io He Ep) as (_ & s' & n' & a & x & X). discriminate X.
  - rewrite (wp_extless _ _ _ _ W) in He; [discriminate He|]. intros ->. discriminate Ed.
Qed.
Lemma views_fine : list_views d l <> None.
Proof.
  unfold list_views. destruct (existsb _ l) eqn:E; [|discriminate]. exfalso. apply existsb_exists in E as ([s n m| | | | | |] & Io & E); try discriminate E.
  pose proof (view_names s n m) as V. pose proof (view_free _ _ _ Io) as Ov. unfold view_fails in E. destruct d; try discriminate E.
  destruct (V eq_refl Io Ov) as (_ & E1 & E2). rewrite E1, E2, andb_false_r in E. discriminate E.
Qed.
Lemma parameter_found s n a x : In (ORoutine s n a x) l -> a <> [] -> some_routine l s n has_parameter = true /\ some_routine l s n has_parameter_row = true.
Proof.
  intros Io Na. unfold some_routine. split; apply existsb_exists; (eexists; split; [exact Io|]); cbn; rewrite !beqb_refl; destruct a; try contradiction; reflexivity.
Qed.
Lemma routines_fine : list_routines d (created k) l <> None.
Proof.
  unfold list_routines. destruct (existsb _ l) eqn:E; [|discriminate]. exfalso. apply existsb_exists in E as ([| | |s n a x| | |] & Io & E); try discriminate E.
  apply andb_true_iff in E as [E F]. apply andb_true_iff in E as [_ E]. apply negb_true_iff in E.
  assert (Ov : ~ overlooked d (ORoutine s n a x)).
  { apply (wp_listed _ _ _ _ W _ Io). intros e He. unfold created in E. rewrite He in E. discriminate E. }
  unfold routine_fails in F. destruct d; try discriminate F.
  - destruct x; try discriminate F. apply Ov. exact I.
  - destruct a as [|c a]; [apply Ov; exact I|]. destruct (parameter_found s n (c :: a) x Io ltac:(discriminate)) as [X _]. rewrite X in F. discriminate F.
Qed.
Definition droppables : list obj := first_objs d l ++ later_objs d (created k) l.
Lemma in_droppables o : In o l -> (forall e, held k o <> Some (OExt e)) -> o <> OExt (B"plpgsql") -> In o droppables.
Proof.
  intros Io Hh Np. pose proof (wp_listed _ _ _ _ W _ Io Hh) as Ov. pose proof (wp_kinds _ _ _ _ W _ Io) as Kd.
  pose proof (schema_is_listed o Ov) as Hs. pose proof (relation_is_listed o) as Hr. unfold droppables, first_objs, later_objs.
  rewrite !in_app_iff.
  destruct o as [s n m|s t n|s n p|s n a kd|s n|s n|n]; cbn [schema_of] in Hs.
  - left. left. apply filter_In. split; [exact Io|]. cbn [sel_view]. unfold view_listed. rewrite Hs by discriminate. rewrite (Hr n Ov) by eauto. cbn [andb]. pose proof (view_names s n m) as V. destruct d; try reflexivity. apply V; auto.
  - left. right. assert (X : In (OFk s t n) (filter (sel_fk d) l)) by (apply filter_In; split; [exact Io|apply Hs; discriminate]). destruct d; try exact X. destruct Kd.
  - right. left. apply filter_In. split; [exact Io|]. cbn [sel_table]. rewrite Hs by discriminate. rewrite (Hr n Ov) by eauto. cbn [andb]. destruct d; try reflexivity. destruct p; [|reflexivity]. exfalso. apply Ov. exact I.
  - right. right. left. assert (X : In (ORoutine s n a kd) (filter (sel_routine d l (created k)) l)).
    { apply filter_In. split; [exact Io|]. cbn [sel_routine]. rewrite Hs by discriminate. cbn [andb].
      assert (Cr : created k (ORoutine s n a kd) = false).
      { unfold created. destruct (held k (ORoutine s n a kd)) as [[| | | | | |e]|] eqn:E; try reflexivity. destruct (Hh e eq_refl). }
      rewrite Cr. cbn [negb]. rewrite andb_true_r. unfold routine_listed. destruct d; try reflexivity.
      - destruct a as [|c a]; [exfalso; apply Ov; exact I|]. exact (proj2 (parameter_found _ _ _ _ Io ltac:(discriminate))).
      - rewrite like_any_false; [reflexivity|]. exact Ov. }
    destruct d; try exact X. destruct Kd.
  - right. right. right. left. assert (X : In (OEnum s n) (filter (sel_enum d) l)) by (apply filter_In; split; [exact Io|apply Hs; discriminate]). destruct d; try destruct Kd. exact X.
  - right. right. right. right. left. assert (X : In (ODomain s n) (filter (sel_domain d) l)) by (apply filter_In; split; [exact Io|apply Hs; discriminate]). destruct d; try destruct Kd. exact X.
  - right. right. right. right. right. assert (X : In (OExt n) (filter sel_ext l)).
    { apply filter_In. split; [exact Io|]. cbn [sel_ext]. destruct (beqb_spec n (B"plpgsql")) as [->|]; [contradiction|reflexivity]. }
    destruct d; try destruct Kd. exact X.
Qed.
Lemma selected_droppable o : In o droppables -> droppable o.
Proof.
  unfold droppables, first_objs, later_objs. rewrite !in_app_iff. intros H.
  assert (Io : In o l).
  { destruct H as [[H|H]|[H|[H|[H|[H|H]]]]]; destruct d; cbn [unless_sqlite if_pg] in H; try (destruct H; fail); apply filter_In in H; tauto. }
  pose proof (wp_kinds _ _ _ _ W _ Io) as Kd.
  assert (Nh : forall e, held k o <> Some (OExt e)).
  { intros e He. destruct (dialect_eqb d Postgres) eqn:Ed.
    - assert (Ep : d = Postgres) by (destruct d; try discriminate Ed; reflexivity). destruct (wp_held _ _ _ _ W _ _ Io He Ep) as (_ & s & n & a & x & ->).
      destruct H as [[H|H]|[H|[H|[H|[H|H]]]]]; destruct d; cbn [unless_sqlite if_pg] in H; try (destruct H; fail); apply filter_In in H as [_ H]; try discriminate H;
        try discriminate Ep; cbn [sel_routine] in H; unfold created in H; rewrite He in H; rewrite andb_false_r in H; discriminate H.
    - rewrite (wp_extless _ _ _ _ W) in He; [discriminate He|]. intros ->. discriminate Ed. }
  assert (Hn : held k o = None).
  { destruct (held k o) as [h|] eqn:E; [|reflexivity]. exfalso. destruct (dialect_eqb d Postgres) eqn:Ed.
    - assert (Ep : d = Postgres) by (destruct d; try discriminate Ed; reflexivity). destruct (wp_held _ _ _ _ W _ _ Io E Ep) as ((e & -> & _) & _). exact (Nh e eq_refl).
    - rewrite (wp_extless _ _ _ _ W) in E; [discriminate E|]. intros ->. discriminate Ed. }
  pose proof (wp_listed _ _ _ _ W _ Io Nh) as Ov.
  split; [exact Io|]. split; [intros _; exact Hn|]. split.
  - intros Ep. destruct o as [| | |s n a [| | |]| | |]; try exact I. apply Ov. rewrite Ep. exact I.
  - destruct o; try exact I; destruct d; cbn [exists_in] in Kd; try contradiction; try discriminate; reflexivity.
Qed.
Lemma sel_first o : In o (first_objs d l) -> (exists s n m, o = OView s n m) \/ is_fk o = true.
Proof.
  unfold first_objs. rewrite in_app_iff. intros [H|H].
  - apply filter_In in H as [_ H]. destruct o; try discriminate H. left. eauto.
  - right. assert (X : In o (filter (sel_fk d) l)) by (destruct d; try exact H; destruct H). apply filter_In in X as [_ X]. destruct o; try discriminate X. reflexivity.
Qed.
Lemma later_not_fk o : In o (later_objs d (created k) l) -> is_fk o = false.
Proof.
  unfold later_objs. rewrite !in_app_iff. intros H.
  destruct H as [H|[H|[H|[H|H]]]]; destruct d; cbn [unless_sqlite if_pg] in H; try (destruct H; fail); apply filter_In in H as [_ H]; destruct o; try discriminate H; reflexivity.
Qed.
Lemma no_plpgsql o : In o droppables -> o <> OExt (B"plpgsql").
Proof.
  unfold droppables, first_objs, later_objs. rewrite !in_app_iff. intros H ->.
  destruct H as [[H|H]|[H|[H|[H|[H|H]]]]]; destruct d; cbn [unless_sqlite if_pg] in H; try (destruct H; fail); apply filter_In in H as [_ H]; discriminate H.
Qed.

Lemma exec_pragma l2 : exec_all d k cur (map (item_ast d cur) (pragma d l)) l2 = (true, l2).
Proof. unfold pragma. destruct d; try reflexivity. destruct (filter (sel_table SQLite) l); reflexivity. Qed.
Theorem run_items : exists l', exec_all d k cur (map (item_ast d cur) (all_items d (created k) l)) l = (true, l')
  /\ incl l' l /\ (forall o, In o l' -> of_plpgsql k o)
  /\ ((forall o, dep k (OExt (B"plpgsql")) o = false) -> In (OExt (B"plpgsql")) l -> In (OExt (B"plpgsql")) l').
Proof.
  pose proof (wp_nodup _ _ _ _ W) as N0.
  assert (C0 : closed l).
  { intros y h Iy Hy. destruct (dialect_eqb d Postgres) eqn:Ed.
    - assert (Ep : d = Postgres) by (destruct d; try discriminate Ed; reflexivity). destruct (wp_held _ _ _ _ W _ _ Iy Hy Ep) as ((e & -> & Ie) & _). exact Ie.
    - rewrite (wp_extless _ _ _ _ W) in Hy; [discriminate Hy|]. intros ->. discriminate Ed. }
  set (vs := filter (sel_view d l) l). set (fs := unless_sqlite d (filter (sel_fk d) l)). set (ls := later_objs d (created k) l).
  assert (Df : forall o, In o fs -> In o (filter (sel_fk d) l)) by (intros o; unfold fs; destruct d; cbn [unless_sqlite]; auto; intros []).
  destruct (run_rest vs l) as (l1 & E1 & I1 & N1 & C1 & D1 & K1).
  { intros o Io. split; [apply selected_droppable; unfold droppables, first_objs; rewrite !in_app_iff; auto|].
    apply filter_In in Io as [_ Io]. destruct o; try discriminate Io. reflexivity. }
  { intros y; auto. } { exact N0. } { exact C0. }
  { right. intros o Io. apply filter_In in Io as [_ Io]. destruct o; try discriminate Io; discriminate. }
  destruct (run_fks fs l1) as (l2 & E2 & I2 & N2 & C2 & D2 & K2).
  { unfold fs. destruct d; try (apply NoDup_filter; exact N0). constructor. }
  { intros o Io. pose proof (Df o Io) as Jo. apply filter_In in Jo as [Jo So]. destruct o as [|s t n| | | | |]; try discriminate So.
    split; [apply selected_droppable; unfold droppables, first_objs; rewrite !in_app_iff; auto|]. split; [reflexivity|].
    apply K1; [exact Jo| |apply held_none; [exact Jo|discriminate]]. intros o Iv. apply filter_In in Iv as [_ Iv]. destruct o as [sv nv mv| | | | | |]; try discriminate Iv.
    split; [discriminate|]. split; [|reflexivity]. destruct (dep k (OFk s t n) (OView sv nv mv)) eqn:E; [|reflexivity]. destruct (wp_fks _ _ _ _ W _ _ _ _ E). }
  { exact I1. } { exact N1. } { exact C1. }
  assert (Nf : forall y, In y l2 -> is_fk y = false).
  { intros y Iy. destruct y as [|s t n| | | | |]; try reflexivity. exfalso. apply (D2 (OFk s t n)); [|exact Iy].
    assert (Jy : In (OFk s t n) l) by (apply I1, I2, Iy).
    assert (X : In (OFk s t n) droppables) by (apply in_droppables; [exact Jy|rewrite held_none by (exact Jy || discriminate); discriminate|discriminate]).
    unfold droppables in X. apply in_app_iff in X as [X|X]; [|apply later_not_fk in X; discriminate X].
    unfold first_objs in X. apply in_app_iff in X as [X|X]; [apply filter_In in X as [_ X]; discriminate X|exact X]. }
  destruct (run_rest ls l2) as (l3 & E3 & I3 & N3 & C3 & D3 & K3).
  { intros o Io. split; [apply selected_droppable; unfold droppables; rewrite in_app_iff; auto|apply later_not_fk; exact Io]. }
  { intros y Iy. apply I1, I2, Iy. } { exact N2. } { exact C2. } { left. exact Nf. }
  exists l3. split.
  - unfold all_items, first_objs. fold vs. fold fs. fold ls. rewrite !map_app, !map_map. change (fun x => item_ast d cur (Some x)) with (ast d cur).
    rewrite <- app_assoc. rewrite exec_all_app, E1. rewrite exec_all_app, E2.
    rewrite exec_all_app, exec_pragma. exact E3.
  - split; [intros y Iy; apply I1, I2, I3, Iy|].
    assert (Dr : forall o, In o droppables -> ~ In o l3).
    { intros o Io J. unfold droppables in Io. apply in_app_iff in Io as [Io|Io].
      - unfold first_objs in Io. apply in_app_iff in Io as [Io|Io]; [exact (D1 o Io (I2 _ (I3 _ J)))|exact (D2 o Io (I3 _ J))].
      - exact (D3 o Io J). }
    split.
    + intros o Jo. assert (Io : In o l) by (apply I1, I2, I3, Jo).
      assert (Dp : o = OExt (B"plpgsql") \/ o <> OExt (B"plpgsql")) by (destruct (obj_eqb_spec o (OExt (B"plpgsql"))); auto).
      destruct Dp as [Dp|Dp]; [left; exact Dp|]. right.
      destruct (held k o) as [h|] eqn:E.
      * specialize (C3 _ _ Jo E). destruct (dialect_eqb d Postgres) eqn:Ed.
        -- assert (Ep : d = Postgres) by (destruct d; try discriminate Ed; reflexivity). destruct (wp_held _ _ _ _ W _ _ Io E Ep) as ((e & -> & Ie) & _).
           destruct (beqb_spec e (B"plpgsql")) as [->|Ne]; [reflexivity|]. exfalso. apply (Dr (OExt e)); [|exact C3].
           apply in_droppables; [exact Ie|rewrite held_none by (exact Ie || discriminate); discriminate|congruence].
        -- rewrite (wp_extless _ _ _ _ W) in E; [discriminate E|]. intros ->. discriminate Ed.
      * exfalso. apply (Dr o); [|exact Jo]. apply in_droppables; [exact Io|rewrite E; discriminate|exact Dp].
    + intros Hp Ip. assert (Hn : held k (OExt (B"plpgsql")) = None) by (apply held_none; [exact Ip|discriminate]).
      assert (Np : forall o, In o droppables -> OExt (B"plpgsql") <> o) by (intros o Io X; exact (no_plpgsql o Io (eq_sym X))).
      apply K3; [|intros o Io; split; [apply Np; unfold droppables; rewrite in_app_iff; auto|split; [apply Hp|reflexivity]]|exact Hn].
      apply K2; [|intros o Io; split; [apply Np; unfold droppables, first_objs; rewrite !in_app_iff; auto|apply Hp]|exact Hn].
      apply K1; [exact Ip|intros o Io; split; [apply Np; unfold droppables, first_objs; rewrite !in_app_iff; auto|split; [apply Hp|reflexivity]]|exact Hn].
Qed.

Theorem wiped pr : d <> Other -> exists l', wipe (server d k cur) true true pr d false (introspect d cur (created k) l) l = (Done, [], l')
  /\ incl l' l /\ (forall o, In o l' -> of_plpgsql k o)
  /\ ((forall o, dep k (OExt (B"plpgsql")) o = false) -> In (OExt (B"plpgsql")) l -> In (OExt (B"plpgsql")) l').
Proof.
  intros Nd. destruct run_items as (l' & E & R). exists l'. split; [|exact R]. unfold wipe. rewrite statements_items.
  - assert (Sr : server d k cur (script (map (item_text d cur) (all_items d (created k) l))) l = (true, l')).
    { unfold server. rewrite script_read; [exact E|]. intros o n Io Jn. apply (wp_names _ _ _ _ W o n); [|exact Jn].
      unfold all_items in Io. rewrite !in_app_iff in Io. assert (Id : In o droppables).
      { unfold droppables. rewrite in_app_iff. destruct Io as [Io|[Io|Io]].
        - apply in_map_iff in Io as (x & [= ->] & Io). auto.
        - exfalso. revert Io. clear. unfold pragma. destruct d; try (intros []). destruct (filter (sel_table SQLite) l); intros Io; [destruct Io|]. destruct Io as [Io|[]]; discriminate Io.
        - apply in_map_iff in Io as (x & [= ->] & Io). auto. }
      destruct (selected_droppable o Id) as (X & _). exact X. }
    destruct (script _) as [|c s] eqn:Es.
    + unfold server in Sr. cbn [read_script exec_all] in Sr. injection Sr as <-. reflexivity.
    + destruct d; try contradiction; rewrite Sr; reflexivity.
  - exact Nd.
  - exact views_fine.
  - exact routines_fine.
Qed.
End Run.
