(** C97: the structs generated for views refer to the views and to their columns. *)
From Coq Require Import Lia.
From Verif Require Import GoStr GoStrFacts ModelCatalog ModelCache ModelDiff ModelGoTag ModelStructs ModelParser SpecGo SpecStructs GoText StructsText DiffLookup
  ModelViews SpecViews ViewFacts.

(** ** C97 *)
(** The text is Go code that declares a struct for each view, with a field for each column. *)
Definition C97_full : Prop := forall d cur schemas l, read_views d cur schemas = Ok l -> declares cur (views_text l) (concat schemas).

(** It does not hold: the field of the column "firstName" is FIRSTNAME and has no tag, so it
    stands for a column "firstname". *)
Definition people : view := View (B"public") (B"people") [B"firstName"] [B"TEXT"] [].
Theorem C97_refuted : ~ C97_full.
Proof.
  intro H. destruct (H Postgres (B"public") [[people]] _ eq_refl) as (gs & G & _ & _ & D). vm_compute in G. injection G as <-.
  inversion D as [|g v gs vs (first & fields & E & _ & _ & _ & F) _]; subst. vm_compute in E. injection E as _ <-.
  inversion F as [|f c fs cs (n & En & S) _]; subst. cbn in En. injection En as <-. vm_compute in S. discriminate S.
Qed.
(** A view "order-lines": the text is no Go code. *)
Theorem C97_refuted_go : exists l, read_views Postgres (B"public") [[View (B"public") (B"order-lines") [B"id"] [B"INT"] []]] = Ok l /\
  go_declarations (views_text l) = None.
Proof. eexists. split; vm_compute; reflexivity. Qed.
(** Views of the same name in two schemas: the struct is declared twice. *)
Theorem C97_refuted_names : exists l gs, read_views Postgres (B"public")
    [[View (B"public") (B"totals") [B"id"] [B"INT"] []]; [View (B"stock") (B"totals") [B"id"] [B"INT"] []]] = Ok l /\
  go_declarations (views_text l) = Some gs /\ map gs_name gs = [B"TOTALS"; B"TOTALS"].
Proof. eexists. eexists. split; [|split]; vm_compute; reflexivity. Qed.

(** Proved for views with names that yield different Go identifiers, and columns without capitals
    and spaces.  Missing: the other views, for which it does not hold. *)
Theorem C97_partial : forall d cur schemas l, presentable (concat schemas) -> Forall (fun v => Forall simple (vw_columns v)) (concat schemas) ->
  read_views d cur schemas = Ok l -> declares cur (views_text l) (concat schemas).
Proof.
  intros d cur schemas l (P & N) S E. destruct (views_declared d cur _ l P E) as (A & B & C & D). exists (map go_struct_of l).
  split; [exact A|]. split; [rewrite B; exact N|]. split; [exact C|]. apply D, S.
Qed.
(** Among the views whose names yield different Go identifiers these are the only ones for which
    it holds: one column with a capital or a space is enough. *)
Theorem C97_only : forall d cur schemas l, presentable (concat schemas) -> read_views d cur schemas = Ok l ->
  declares cur (views_text l) (concat schemas) -> Forall (fun v => Forall simple (vw_columns v)) (concat schemas).
Proof.
  intros d cur schemas l (P & N) E (gs & G & _ & _ & D). destruct (views_declared d cur _ l P E) as (A & _ & _ & Q). apply Q. congruence.
Qed.
(** The view itself is named correctly in any case, whatever its capitals and spaces. *)
Theorem C97_view : forall d cur schemas l, presentable (concat schemas) -> read_views d cur schemas = Ok l ->
  exists gs, go_declarations (views_text l) = Some gs /\ NoDup (map gs_name gs) /\
    Forall2 (fun g v => exists first fields, gs_fields g = first :: fields /\ gf_names first = [] /\ gf_type first = Selector (B"sq") (B"ViewStruct") /\
      named_view cur (said_name (gs_name g) (gf_tag first)) (lives_in cur v) (vw_name v) /\ List.length fields = List.length (vw_columns v)) gs (concat schemas).
Proof.
  intros d cur schemas l (P & N) E. destruct (views_declared d cur _ l P E) as (A & B & _ & _). exists (map go_struct_of l).
  split; [exact A|]. split; [rewrite B; exact N|]. clear A B N. unfold read_views in E. apply read_views_shape in E. revert P.
  induction E as [|v s vs l (fs & Ef & ->) E IH]; intro P; [constructor|]. inversion P as [|? ? Pv Ps]; subst. cbn [map]. constructor; [|apply IH, Ps].
  eexists. eexists. split; [reflexivity|]. split; [reflexivity|]. split; [reflexivity|]. split; [exact (view_said cur v Pv)|].
  change (List.length (map go_of fs) = List.length (vw_columns v)). rewrite map_length. symmetry. apply fields_shape in Ef. clear - Ef. induction Ef; cbn; congruence.
Qed.

(** The fields have the types that the fields of table columns of the same types have; columns
    without a known type count as columns of the empty type. *)
Lemma types_only : forall d c c', col_type c = col_type c' -> col_enum c = col_enum c' -> get_field_type d c = get_field_type d c'.
Proof. intros d c c' T E. unfold get_field_type. rewrite T, E. reflexivity. Qed.
Lemma fields_types : forall d v cs i fs k n (c : column), view_fields d v i cs = Ok fs -> nth_error cs k = Some n ->
  col_type c = nth (i + k) (vw_types v) [] -> (col_enum c = true <-> In n (vw_enums v)) ->
  exists f, nth_error fs k = Some f /\ get_field_type d c = Ok (f_type f).
Proof.
  intros d v. induction cs as [|a cs IH]; intros i fs k n c E K T M; [destruct k; discriminate|]. cbn [view_fields] in E.
  apply bindr_inv in E as (ty & Et & E). apply bindr_inv in E as (fs' & Ef & E). injection E as <-. destruct k as [|k].
  - injection K as ->. eexists. split; [reflexivity|]. cbn [f_type]. rewrite <- Et. rewrite Nat.add_0_r in T. apply types_only; [exact T|].
    cbn. destruct (bmem n (vw_enums v)) eqn:X.
    + apply M, bmem_In, X.
    + destruct (col_enum c); [|reflexivity]. destruct M as (M & _). specialize (M eq_refl). apply bmem_In in M. congruence.
  - cbn [nth_error] in K. apply (IH (S i) fs' k n c Ef K); [|exact M]. rewrite T. f_equal. lia.
Qed.
Theorem C97_types : forall d cur v s, read_view d cur v = Ok s -> forall k n (c : column), nth_error (vw_columns v) k = Some n ->
  col_type c = nth k (vw_types v) [] -> (col_enum c = true <-> In n (vw_enums v)) ->
  exists f, nth_error (ts_fields s) (S k) = Some f /\ get_field_type d c = Ok (f_type f).
Proof.
  intros d cur v s E k n c K T M. unfold read_view in E. apply bindr_inv in E as (fs & Ef & E). injection E as <-. cbn [ts_fields nth_error].
  exact (fields_types d v _ 0 fs k n c Ef K T M).
Qed.

(** ** Views that meet the hypotheses *)
Definition some_views : list (list view) :=
  [[View (B"public") (B"people") [B"id"; B"first_name"] [B"INT"; B"TEXT"] []; View (B"public") (B"Open Orders") [B"status"] [B"order_status"] [B"status"]];
   [View (B"stock") (B"totals") [B"n2"] [B"BIGINT"] []]].
Definition is_word (n : bytes) : bool :=
  match n with c :: _ => negb (is_digit c) | [] => false end && forallb (fun c => is_letter c || is_digit c || ceqb c underscore || ceqb c SPACE) n.
Lemma word_of : forall n, is_word n = true -> go_word n.
Proof.
  intros n H. apply andb_true_iff in H as (H1 & H2). split.
  - destruct n as [|c s]; [discriminate|]. exists c, s. split; [reflexivity|]. apply negb_true_iff, H1.
  - intros c Hc. rewrite forallb_forall in H2. specialize (H2 c Hc). rewrite !orb_true_iff in H2.
    destruct H2 as [[[H|H]|H]|H]; [tauto|tauto| |]; destruct (ceqb_spec c underscore); destruct (ceqb_spec c SPACE); subst; tauto || discriminate.
Qed.
Ltac distinct := repeat constructor; cbn; intuition discriminate.
Example some_presentable : presentable (concat some_views).
Proof.
  split; [|vm_compute; distinct]. cbn [concat some_views app].
  repeat (constructor; [split; [apply word_of; vm_compute; reflexivity|split; [vm_compute; intuition discriminate|split; [vm_compute; intuition discriminate|
    split; [cbn; repeat (constructor; [apply word_of; vm_compute; reflexivity|]); constructor|vm_compute; distinct]]]]|]). constructor.
Qed.
Example some_simple : Forall (fun v => Forall simple (vw_columns v)) (concat some_views).
Proof.
  cbn [concat some_views app]. repeat (constructor; [cbn [vw_columns]; repeat (constructor; [apply lower_simple; vm_compute; reflexivity|]); constructor|]). constructor.
Qed.
Example some_text : exists l, read_views Postgres (B"public") some_views = Ok l /\ views_text l =
  B"type PEOPLE struct {" ++ [LF; TAB] ++ B"sq.ViewStruct" ++ [LF; TAB] ++ B"ID sq.NumberField" ++ [LF; TAB] ++ B"FIRST_NAME sq.StringField" ++ [LF] ++ B"}" ++ [LF; LF]
  ++ B"type OPEN_ORDERS struct {" ++ [LF; TAB] ++ B"sq.ViewStruct `sq:""public.Open Orders""`" ++ [LF; TAB] ++ B"STATUS sq.EnumField" ++ [LF] ++ B"}" ++ [LF; LF]
  ++ B"type TOTALS struct {" ++ [LF; TAB] ++ B"sq.ViewStruct `sq:""stock.totals""`" ++ [LF; TAB] ++ B"N2 sq.NumberField" ++ [LF] ++ B"}" ++ [LF].
Proof. eexists. split; vm_compute; reflexivity. Qed.

Print Assumptions C97_refuted.
Print Assumptions C97_refuted_go.
Print Assumptions C97_refuted_names.
Print Assumptions C97_partial.
Print Assumptions C97_only.
Print Assumptions C97_view.
Print Assumptions C97_types.
