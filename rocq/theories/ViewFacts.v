(** The text of view structs and what it says (C97). *)
From Coq Require Import Lia.
From Verif Require Import GoStr GoStrFacts ModelCatalog ModelCache ModelDiff ModelGoTag ModelModifier ModelStructs ModelParser SpecGo SpecStructs GoText StructsText ReadColumns
  DiffLookup ModelViews SpecViews.

Lemma lower_simple : forall n, to_lower (go_name n) = n <-> simple n.
Proof.
  unfold simple, go_name, to_lower, to_upper, replace_byte. induction n as [|a n IH]; [split; [intros _ x []|reflexivity]|].
  cbn [flat_map]. rewrite !map_app.
  assert (A : exists y, map to_lower_c (map to_upper_c (if ceqb a SPACE then B"_" else [a])) = [y] /\ (y = a <-> is_upper a = false /\ a <> SPACE)).
  { clear. destruct a as [[] [] [] [] [] [] [] []]; vm_compute; eexists; (split; [reflexivity|]); (split; [intro E; first [discriminate E|split; [reflexivity|discriminate]]|intros (E1 & E2); try discriminate; congruence || reflexivity]). }
  destruct A as (y & Ey & A). rewrite Ey. cbn [app]. split.
  - intros E x Hx. injection E as E1 E2. destruct Hx as [<-|Hx]; [apply A, E1|]. apply (proj1 IH E2), Hx.
  - intro H. f_equal; [apply A, H; left; reflexivity|]. apply IH. intros x Hx. apply H. right. exact Hx.
Qed.
Lemma bare : forall n ty, field_tag (Field n ty [] []) = None.
Proof. reflexivity. Qed.
Lemma said_bare : forall n, said_name n None = to_lower n.
Proof. reflexivity. Qed.
Lemma said_tag : forall go ty tag, ~ In backtick tag -> said_name go (field_tag (Field [] ty tag [])) = match tag with [] => to_lower go | _ => tag end.
Proof.
  intros go ty tag T. unfold field_tag. cbn [f_tag f_mods]. change (is_empty (modifiers_string [])) with true. rewrite andb_true_r.
  destruct tag as [|x t]; [reflexivity|]. cbn [is_empty]. unfold said_name.
  rewrite unquote_body; [|apply body_no_tick; [exact T|intros []]|apply body_no_cr]. rewrite tag_sq. reflexivity.
Qed.

Lemma fields_shape : forall d v cs i fs, view_fields d v i cs = Ok fs ->
  Forall2 (fun c f => exists ty, sq_type ty /\ f = Field (go_name c) ty [] []) cs fs.
Proof.
  intros d v cs. induction cs as [|c cs IH]; intros i fs E; cbn [view_fields] in E; [injection E as <-; constructor|].
  apply bindr_inv in E as (ty & Et & E). apply bindr_inv in E as (fs' & Ef & E). injection E as <-. constructor; [|eapply IH; exact Ef].
  exists ty. split; [eapply field_types; exact Et|reflexivity].
Qed.
Lemma fields_names : forall cs fs, Forall2 (fun c f => exists ty, sq_type ty /\ f = Field (go_name c) ty [] []) cs fs ->
  Forall go_word cs -> flat_map gf_names (map go_of fs) = map go_name cs.
Proof.
  intros cs fs H. induction H as [|c f cs fs (ty & _ & ->) H IH]; intro G; [reflexivity|]. inversion G as [|? ? Gc Gs]; subst. cbn [map flat_map].
  rewrite (IH Gs). unfold go_of. cbn [gf_names f_name]. rewrite go_name_some by (destruct Gc as ((x & s & -> & _) & _); discriminate). reflexivity.
Qed.
Lemma fields_say : forall cs fs, Forall2 (fun c f => exists ty, sq_type ty /\ f = Field (go_name c) ty [] []) cs fs ->
  Forall go_word cs -> (Forall2 says_column (map go_of fs) cs <-> Forall simple cs).
Proof.
  intros cs fs H. induction H as [|c f cs fs (ty & _ & ->) H IH]; intro G; [split; constructor|]. inversion G as [|? ? Gc Gs]; subst. specialize (IH Gs).
  assert (S : says_column (go_of (Field (go_name c) ty [] [])) c <-> simple c).
  { rewrite <- lower_simple. unfold says_column, go_of. cbn [gf_names gf_tag f_name].
    rewrite go_name_some by (destruct Gc as ((x & s & -> & _) & _); discriminate). rewrite bare. split.
    - intros (n & En & S). injection En as <-. exact S.
    - intro S. exists (go_name c). split; [reflexivity|exact S]. }
  cbn [map]. split; intro X; inversion X; subst; constructor; tauto.
Qed.
Lemma fields_are_ok : forall cs fs, Forall2 (fun c f => exists ty, sq_type ty /\ f = Field (go_name c) ty [] []) cs fs ->
  Forall go_word cs -> Forall field_ok fs.
Proof.
  intros cs fs H. induction H as [|c f cs fs (ty & T & ->) H IH]; intro G; [constructor|]. inversion G as [|? ? Gc Gs]; subst.
  constructor; [|apply IH, Gs]. apply named_ok; [apply go_name_ident, Gc|left; exact T|intros []|constructor].
Qed.

Definition fit (v : view) : Prop := go_word (vw_name v) /\ ~ In backtick (vw_schema v) /\ ~ In "."%char (vw_schema v) /\
  Forall go_word (vw_columns v) /\ NoDup (map go_name (vw_columns v)).

Lemma tag_no_tick : forall cur v, fit v -> ~ In backtick (view_tag cur v).
Proof.
  intros cur v (G & T & _). pose proof (word_no_tick _ G) as W. unfold view_tag. destruct (_ || _); [|intros []].
  destruct (is_empty (vw_schema v)); [exact W|]. rewrite !in_app_iff. intros [X|[X|X]]; [exact (T X)| |exact (W X)].
  destruct X as [X|[]]. discriminate X.
Qed.
Lemma word_no_dot : forall n, go_word n -> ~ In "."%char n.
Proof. intros n (_ & H) X. destruct (H _ X) as [Y|[Y|[Y|Y]]]; vm_compute in Y; discriminate. Qed.
Lemma view_said : forall cur v, fit v ->
  named_view cur (said_name (go_name (vw_name v)) (field_tag (Field [] (B"sq.ViewStruct") (view_tag cur v) []))) (lives_in cur v) (vw_name v).
Proof.
  intros cur v F. rewrite said_tag by (apply tag_no_tick, F). destruct F as (G & T & D & _). unfold named_view, view_tag, lives_in.
  assert (N : vw_name v <> []) by (destruct G as ((x & s & -> & _) & _); discriminate).
  destruct (vw_schema v) as [|x s] eqn:Es; cbn [is_empty negb andb orb].
  - right. split; [|split; [apply word_no_dot, G|reflexivity]]. destruct (needs_quoting (vw_name v)) eqn:Q.
    + destruct (vw_name v); [congruence|reflexivity].
    + apply lower_go; assumption.
  - destruct (beqb_spec (x :: s) cur) as [Ec|Ec]; cbn [negb orb].
    + destruct (needs_quoting (vw_name v)) eqn:Q.
      * left. split; [reflexivity|exact D].
      * right. split; [apply lower_go; assumption|]. split; [apply word_no_dot, G|exact Ec].
    + left. split; [reflexivity|exact D].
Qed.

Lemma read_views_shape : forall d cur vs l, mapr (read_view d cur) vs = Ok l ->
  Forall2 (fun v s => exists fs, view_fields d v 0 (vw_columns v) = Ok fs /\
    s = TableStruct (go_name (vw_name v)) (Field [] (B"sq.ViewStruct") (view_tag cur v) [] :: fs)) vs l.
Proof.
  induction vs as [|v vs IH]; intros l E; cbn [mapr] in E; [injection E as <-; constructor|].
  apply bindr_inv in E as (s & Es & E). apply bindr_inv in E as (l' & El & E). injection E as <-. constructor; [|apply IH, El].
  unfold read_view in Es. apply bindr_inv in Es as (fs & Ef & Es). injection Es as <-. exists fs. split; [exact Ef|reflexivity].
Qed.

Lemma views_declared : forall d cur vs l, Forall fit vs -> mapr (read_view d cur) vs = Ok l ->
  go_declarations (views_text l) = Some (map go_struct_of l) /\
  map gs_name (map go_struct_of l) = map (fun v => go_name (vw_name v)) vs /\
  Forall (fun g => NoDup (flat_map gf_names (gs_fields g))) (map go_struct_of l) /\
  (Forall2 (describes cur) (map go_struct_of l) vs <-> Forall (fun v => Forall simple (vw_columns v)) vs).
Proof.
  intros d cur vs l F E. apply read_views_shape in E.
  assert (G : Forall (fun t => is_ident (ts_name t) = true /\ Forall field_ok (ts_fields t)) l).
  { revert F. induction E as [|v s vs l (fs & Ef & ->) E IH]; intro F; [constructor|]. inversion F as [|? ? Fv Fs]; subst. constructor; [|apply IH, Fs].
    pose proof (tag_no_tick cur v Fv) as T. destruct Fv as (W & _ & _ & C & _). cbn [ts_name ts_fields]. split; [apply go_name_ident, W|].
    constructor; [|eapply fields_are_ok; [eapply fields_shape; exact Ef|exact C]]. repeat split; cbn; [|exact T|constructor|constructor].
    left. split; [reflexivity|]. exists (B"ViewStruct"). split; vm_compute; reflexivity. }
  split; [unfold views_text, go_declarations; rewrite lex_structs by exact G; apply parse_types_tokens; [exact G|lia]|]. clear G.
  revert F. induction E as [|v s vs l (fs & Ef & ->) E IH]; intro F; [cbn; repeat split; constructor|]. inversion F as [|? ? Fv Fs]; subst.
  destruct (IH Fs) as (I1 & I2 & I3). cbn [map]. split; [rewrite I1; reflexivity|]. pose proof (fields_shape _ _ _ _ _ Ef) as Sh.
  pose proof (view_said cur v Fv) as Sv. destruct Fv as (W & T & D & C & N). split.
  - constructor; [|exact I2]. cbn. rewrite (fields_names _ _ Sh C). exact N.
  - assert (Q : describes cur (go_struct_of (TableStruct (go_name (vw_name v)) (Field [] (B"sq.ViewStruct") (view_tag cur v) [] :: fs))) v <-> Forall simple (vw_columns v)).
    { rewrite <- (fields_say _ _ Sh C). unfold describes. cbn [go_struct_of gs_fields gs_name ts_fields ts_name map]. split.
      - intros (first & fields & X & _ & _ & _ & H). injection X as _ <-. exact H.
      - intro H. eexists. eexists. split; [reflexivity|]. split; [reflexivity|]. split; [reflexivity|]. split; [exact Sv|exact H]. }
    split; intro X; inversion X; subst; constructor; tauto.
Qed.
