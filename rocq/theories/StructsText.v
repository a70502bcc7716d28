(** Proofs about the table structs written for a catalog: which catalogs give Go code. *)
From Coq Require Import Lia.
From Verif Require Import GoStr GoStrFacts ModelCatalog ModelCache ModelDdl ModelModifier SpecModifier ModifierFacts ModelDiff DiffLookup CacheFacts DdlFacts
  ModelGoTag ModelStructs ModelParser SpecGo SpecStructs GoText.

Definition good_mod (m : modifier) : Prop := printable m /\ no_backticks m /\ 2 <= List.length (m_name m).
(** The modifiers of keys and indexes have no raw value. *)
Definition good_key (m : modifier) : Prop := good_mod m /\ m_dialects m = [] /\ m_raw m = [].

Definition good_name (n : bytes) : bool := (2 <=? List.length n) && forallb (fun c => negb (existsb (ceqb c) (B" ={}:`"))) n.
Lemma name_ok : forall n, good_name n = true -> plain_name n /\ ~ In backtick n /\ 2 <= List.length n.
Proof.
  intros n H. apply andb_true_iff in H as (L & H). apply Nat.leb_le in L. rewrite forallb_forall in H. split; [|split; [|exact L]].
  - split; [destruct n; [cbn in L; lia|discriminate]|]. intros x Hx X. specialize (H x Hx). apply negb_true_iff in H.
    assert (E : existsb (ceqb x) (B" ={}:`") = true); [|congruence]. apply existsb_exists. exists x. split; [|destruct (ceqb_spec x x); congruence].
    cbn in *. tauto.
  - intro Hx. specialize (H _ Hx). vm_compute in H. discriminate.
Qed.
Lemma plain_nil : plain_value [].
Proof. split; [constructor|right; discriminate]. Qed.
Lemma nil_ok : value_ok [].
Proof. split; [exact plain_nil|intros []]. Qed.
Lemma quiet_value : forall s, quiet s -> value_ok s.
Proof.
  intros s (A & A' & C). split; [|exact C]. split; [apply balanced_no_braces; assumption|right]. intros r ->. apply A. left. reflexivity.
Qed.

Lemma raw_good : forall s raw, good_name (B s) = true -> value_ok raw -> good_mod (raw_modifier s raw).
Proof.
  intros s raw G (V & Q). destruct (name_ok _ G) as (P & T & L). split; [|split].
  - destruct raw as [|a raw]; [apply pr_value; auto|apply pr_raw; auto; discriminate].
  - constructor; auto.
  - exact L.
Qed.
Lemma value_good : forall n v subs, good_name n = true -> value_ok v -> Forall good_mod subs -> good_key (Mod [] n [] v subs).
Proof.
  intros n v subs G (V & Q) S. destruct (name_ok _ G) as (P & T & L). split; [split; [|split]|split; reflexivity].
  - apply pr_value; auto. eapply Forall_impl; [|exact S]. intros m (A & _). exact A.
  - constructor; auto. eapply Forall_impl; [|exact S]. intros m (_ & A & _). exact A.
  - exact L.
Qed.
Lemma flag_good : forall s, good_name (B s) = true -> good_mod (flag s).
Proof. intros s G. apply value_good; [exact G|exact nil_ok|constructor]. Qed.
Lemma flag_list : forall s, good_name (B s) = true -> Forall good_mod [flag s].
Proof. intros s G. constructor; [apply flag_good, G|constructor]. Qed.
Lemma when_good : forall b m, (b = true -> good_mod m) -> Forall good_mod (when_ b m).
Proof. intros [] m H; cbn; auto. Qed.
Lemma key_value : forall v m, value_ok v -> good_key m -> good_key (with_value v m).
Proof.
  intros v m (V & Q) ((P & T & L) & D & R). destruct m as [ds n raw v0 subs]. cbn in *. subst. split; [|split; reflexivity].
  inversion P; subst; [contradiction|]. inversion T; subst. split; [apply pr_value; auto|]. split; [constructor; auto|exact L].
Qed.
Lemma key_sub : forall s m, good_mod s -> good_key m -> good_key (add_sub s m).
Proof.
  intros s m (Ps & Ts & Ls) ((P & T & L) & D & R). destruct m as [ds n raw v0 subs]. cbn in *. subst. split; [|split; reflexivity].
  inversion P; subst; [contradiction|]. inversion T; subst. split; [|split; [|exact L]].
  - apply pr_value; auto. apply Forall_app. split; auto.
  - constructor; auto. apply Forall_app. split; auto.
Qed.
Lemma join_quiet : forall sep l, quiet sep -> Forall quiet l -> quiet (join sep l).
Proof.
  intros sep l (S1 & S2 & S3) H. induction H as [|s l (A & A' & A'') H IH]; [repeat split; intros []|].
  destruct l as [|s' l]; [cbn; repeat split; assumption|]. rewrite join_cons by discriminate. destruct IH as (I1 & I2 & I3).
  split; [|split]; rewrite !in_app_iff; tauto.
Qed.
Lemma quiet_app : forall a b, quiet a -> quiet b -> quiet (a ++ b).
Proof. intros a b (A & A' & A'') (C & C' & C''). split; [|split]; rewrite in_app_iff; tauto. Qed.
Lemma quiet_nil : quiet [].
Proof. repeat split; intros []. Qed.
Lemma quiet_lit : forall s, existsb (fun c => existsb (ceqb c) (B"{}`")) s = false -> quiet s.
Proof.
  intros s H. assert (Q : forall c, In c (B"{}`") -> ~ In c s).
  { intros c Hc Hs. assert (E : existsb (fun c => existsb (ceqb c) (B"{}`")) s = true); [|congruence].
    apply existsb_exists. exists c. split; [exact Hs|]. apply existsb_exists. exists c. split; [exact Hc|]. destruct (ceqb_spec c c); congruence. }
  split; [|split]; apply Q; cbn; auto.
Qed.
Lemma lower_quiet : forall s, quiet s -> quiet (to_lower (replace_byte SPACE [] s)).
Proof.
  assert (Q : forall c, In c (B"{}`") -> forall x, to_lower_c x = c -> x = c).
  { intros c Hc x <-. revert Hc.
    assert (E : existsb (ceqb (to_lower_c x)) (B"{}`") = true -> x = to_lower_c x).
    { destruct x as [[] [] [] [] [] [] [] []]; vm_compute; intro H; first [reflexivity|discriminate]. }
    intro H. apply E. apply existsb_exists. exists (to_lower_c x). split; [exact H|]. destruct (ceqb_spec (to_lower_c x) (to_lower_c x)); congruence. }
  intros s (A & A' & A'').
  assert (R : forall c, In c (B"{}`") -> In c (to_lower (replace_byte SPACE [] s)) -> In c s).
  { intros c Hc H. unfold to_lower in H. apply in_map_iff in H as (x & Ex & Hx). apply (Q c Hc) in Ex. subst x.
    unfold replace_byte in Hx. apply in_flat_map in Hx as (y & Hy & Hc'). destruct (ceqb y SPACE); [destruct Hc'|]. destruct Hc' as [->|[]]. exact Hy. }
  split; [|split]; intro H; apply R in H; auto; cbn; auto.
Qed.

(** ** Keys and indexes *)
Lemma rule_good : forall s rule, good_name (B s) = true -> quiet rule -> Forall good_mod (rule_modifier s rule).
Proof.
  intros s rule G Q. apply when_good. intros _. apply value_good; [exact G|apply quiet_value, lower_quiet, Q|constructor].
Qed.
Lemma deferral_good : forall c, Forall good_mod (when_ (con_deferrable c) (if con_deferred c then flag "deferred" else flag "deferrable")).
Proof. intro c. apply when_good. intros _. destruct (con_deferred c); apply flag_good; reflexivity. Qed.
Lemma constraint_good : forall cur c, (con_ignore c = false -> constraint_ok c) -> Forall good_key (constraint_modifier cur c).
Proof.
  intros cur c H. unfold constraint_modifier. destruct (con_ignore c); [constructor|]. destruct (H eq_refl) as (Hc & Hf). clear H.
  assert (V : value_ok (join (B",") (con_columns c))) by (apply quiet_value, join_quiet; [apply quiet_lit; reflexivity|exact Hc]).
  pose proof (deferral_good c) as D.
  destruct (beqb_spec (con_type c) PRIMARY_KEY); [constructor; [|constructor]; apply value_good; [reflexivity|exact V|exact D]|].
  destruct (beqb_spec (con_type c) UNIQUE); [constructor; [|constructor]; apply value_good; [reflexivity|exact V|exact D]|].
  destruct (beqb_spec (con_type c) FOREIGN_KEY) as [E|]; [|constructor]. destruct (Hf E) as (Ne & Q1 & Q2 & Q3 & Q4 & Q5).
  constructor; [|constructor]. apply value_good; [reflexivity|exact V|]. constructor.
  - apply raw_good; [reflexivity|].
    + apply quiet_value. unfold references_value. apply quiet_app; [|apply quiet_app; [exact Q2|]].
      * destruct (_ && _); [apply quiet_app; [exact Q1|apply quiet_lit; reflexivity]|exact quiet_nil].
      * destruct (columns_equal _ _); [exact quiet_nil|]. apply quiet_app; [apply quiet_lit; reflexivity|].
        apply join_quiet; [apply quiet_lit; reflexivity|exact Q3].
  - apply Forall_app. split; [apply rule_good; [reflexivity|exact Q4]|]. apply Forall_app. split; [apply rule_good; [reflexivity|exact Q5]|exact D].
Qed.
Lemma index_good : forall x, index_ok x -> good_key (index_modifier x).
Proof.
  intros x (Hc & Ht). unfold index_modifier. apply value_good; [reflexivity| |].
  - apply quiet_value, join_quiet; [apply quiet_lit; reflexivity|exact Hc].
  - apply Forall_app. split; [apply when_good; intros _; apply flag_good; reflexivity|]. apply when_good. intros _. apply raw_good; [reflexivity|exact Ht].
Qed.
Lemma nest_good : forall ixs i l l' nested, Forall good_key ixs -> Forall good_key l -> nest_indexes i l ixs = (l', nested) -> Forall good_key l'.
Proof.
  induction ixs as [|x ixs IH]; intros i l l' nested Hi Hl E; cbn [nest_indexes] in E; [injection E as <- _; exact Hl|].
  inversion Hi as [|? ? Hx Hi']; subst. destruct (entry _ _ _) as [p|].
  - set (l0 := match nth_error l p with Some m => _ | None => l end) in E.
    assert (G : Forall good_key l0).
    { unfold l0. destruct (nth_error l p) as [m|] eqn:En; [|exact Hl]. apply Forall_set_nth; [exact Hl|].
      apply key_sub; [apply key_value; [exact nil_ok|exact Hx]|]. eapply Forall_forall; [exact Hl|eapply nth_error_In; exact En]. }
    destruct (nest_indexes (S i) l0 ixs) as [l2 n2] eqn:E2. injection E as <- _. exact (IH _ _ _ _ Hi' G E2).
  - exact (IH _ _ _ _ Hi' Hl E).
Qed.

(** ** Columns *)
Lemma go_name_ident : forall n, go_word n -> is_ident (go_name n) = true.
Proof.
  intros n ((c & s & -> & Dc) & H).
  set (f := fun x => to_upper_c (if ceqb x SPACE then underscore else x)).
  assert (E : forall t, go_name t = map f t).
  { induction t as [|x t IH]; [reflexivity|]. unfold go_name in *. cbn [replace_byte flat_map]. unfold to_upper in *. rewrite map_app.
    cbn [map]. unfold replace_byte in IH. rewrite IH. unfold f at 2. destruct (ceqb x SPACE); reflexivity. }
  assert (F : forall x, is_letter x = true \/ is_digit x = true \/ x = underscore \/ x = SPACE ->
    ident_char (f x) = true /\ (is_digit x = false -> ident_start (f x) = true) /\ is_lower (f x) = false).
  { intros x Hx.
    assert (X : is_letter x || is_digit x || ceqb x underscore || ceqb x SPACE = true).
    { destruct Hx as [X|[X|[-> | ->]]]; [rewrite X|rewrite X, orb_true_r| |]; reflexivity. }
    assert (Q : ident_char (f x) && (is_digit x || ident_start (f x)) && negb (is_lower (f x)) = true).
    { clear Hx. revert X. destruct x as [[] [] [] [] [] [] [] []]; vm_compute; intro X; first [reflexivity|discriminate]. }
    apply andb_true_iff in Q as (Q & Q3). apply andb_true_iff in Q as (Q1 & Q2). apply negb_true_iff in Q3. split; [exact Q1|]. split; [|exact Q3].
    intro D. rewrite D in Q2. exact Q2. }
  rewrite E. cbn [map]. unfold is_ident. apply andb_true_iff. split; [apply andb_true_iff; split|].
  - apply F; [apply H; left; reflexivity|exact Dc].
  - change (f c :: map f s) with (map f (c :: s)). rewrite forallb_forall. intros y Hy. apply in_map_iff in Hy as (x & <- & Hx). apply F. apply H. exact Hx.
  - apply negb_true_iff. destruct (bmem (f c :: map f s) go_keywords) eqn:K; [|reflexivity]. apply bmem_In in K. exfalso.
    assert (L : is_lower (f c) = false) by (apply F, H; left; reflexivity).
    assert (A : forallb (fun w => match w with x :: _ => is_lower x | [] => false end) go_keywords = true) by (vm_compute; reflexivity).
    rewrite forallb_forall in A. specialize (A _ K). cbn in A. congruence.
Qed.
Definition sq_names : list bytes := map B ["EnumField"; "ArrayField"; "BooleanField"; "UUIDField"; "BinaryField"; "JSONField"; "NumberField"; "StringField"; "TimeField"; "AnyField"]%string.
Lemma field_types : forall d c ty, get_field_type d c = Ok ty -> sq_type ty.
Proof.
  intros d c ty H. assert (Q : exists x, In x sq_names /\ ty = B"sq." ++ x).
  { unfold get_field_type in H.
    destruct (col_enum c); [injection H as <-; exists (B"EnumField"); split; [vm_compute; tauto|reflexivity]|].
    destruct (has_suffix _ _); [injection H as <-; exists (B"ArrayField"); split; [vm_compute; tauto|reflexivity]|].
    apply bindr_inv in H as (((t & a1) & a2) & _ & H). injection H as <-.
    repeat match goal with |- context [if ?b then _ else _] => destruct b end;
    match goal with |- exists x, In x sq_names /\ ?t = _ => let v := eval vm_compute in (skipn 3 t) in exists v; split; [vm_compute; tauto|vm_compute; reflexivity] end. }
  destruct Q as (x & Hx & ->). exists x. split; [reflexivity|].
  assert (A : forallb is_ident sq_names = true) by (vm_compute; reflexivity). rewrite forallb_forall in A. apply A. exact Hx.
Qed.
Lemma on_column_good : forall l p, Forall good_key l -> Forall good_mod (on_column l p).
Proof.
  intros l [p|] H; [|constructor]. cbn. destruct (nth_error l p) as [m|] eqn:E; [|constructor]. constructor; [|constructor].
  apply key_value; [exact nil_ok|]. eapply Forall_forall; [exact H|eapply nth_error_In; exact E].
Qed.
Lemma on_reference_good : forall l p r, Forall good_key l -> on_reference l p = Ok r -> Forall good_mod r.
Proof.
  intros l [p|] r H E; cbn in E; [|injection E as <-; constructor]. destruct (nth_error l p) as [m|] eqn:En; [|injection E as <-; constructor].
  assert (G : good_key m) by (eapply Forall_forall; [exact H|eapply nth_error_In; exact En]). destruct G as ((P & T & L) & D & R).
  destruct m as [ds n raw v subs]. cbn in D, R. subst. unfold references_of in E. cbn in E. destruct subs as [|s subs]; [discriminate|]. injection E as <-.
  inversion P as [|? ? ? ? ? Ps]; subst; [contradiction|]. inversion T as [? ? ? ? ? ? ? ? Ts]; subst. inversion Ps as [|? ? Ps1 Ps2]; subst. inversion Ts as [|? ? Ts1 Ts2]; subst.
  assert (V : value_ok (m_raw s)).
  { inversion Ts1; subst. inversion Ps1; subst; cbn; [split; assumption|exact nil_ok]. }
  constructor; [|constructor]. destruct (name_ok (B"references") eq_refl) as (N1 & N2 & N3). destruct V as (V1 & V2). split; [|split].
  - apply pr_value; auto.
  - constructor; auto.
  - exact N3.
Qed.
Lemma long_start_good : forall ms, Forall good_mod ms -> long_start ms.
Proof.
  intros ms H. destruct ms as [|[ds n raw v subs] ms]; [exact I|]. inversion H as [|? ? (_ & _ & L) _]; subst. cbn in L. cbn.
  destruct n as [|a [|b n]]; cbn in L; [lia|lia|exact I].
Qed.
Lemma named_ok : forall name ty tag ms, is_ident name = true -> (sq_type ty \/ ty = B"struct{}") -> ~ In backtick tag -> Forall good_mod ms ->
  field_ok (Field name ty tag ms).
Proof.
  intros name ty tag ms N T G H. repeat split; cbn [f_name f_type f_tag f_mods].
  - right. auto.
  - exact G.
  - eapply Forall_impl; [|exact H]. intros m (A & _). exact A.
  - eapply Forall_impl; [|exact H]. intros m (_ & A & _). exact A.
  - apply long_start_good, H.
Qed.
Lemma word_no_tick : forall n, go_word n -> ~ In backtick n.
Proof. intros n (_ & H) X. destruct (H _ X) as [Y|[Y|[Y|Y]]]; vm_compute in Y; discriminate. Qed.
Lemma unwrap_cases : forall s, unwrap_brackets s = s \/ s = B"(" ++ unwrap_brackets s ++ B")".
Proof.
  intros s. unfold unwrap_brackets. destruct (wrapped_in_brackets s) eqn:W; [right|left; reflexivity].
  apply wrapped_spec in W as (m & ->). cbn [tl]. rewrite removelast_last. reflexivity.
Qed.
Lemma default_ok : forall c, column_ok c -> existsb (ceqb backtick) (col_default c) = false -> value_ok (unwrap_brackets (col_default c)).
Proof.
  intros c (_ & _ & _ & _ & H) N. apply absent in N. destruct (unwrap_cases (col_default c)) as [E|E].
  - rewrite E. split; [apply H; left; reflexivity|exact N].
  - split; [apply H; right; exact E|]. intro X. apply N. rewrite E, !in_app_iff. auto.
Qed.
Lemma column_field_ok : forall cat l ixs added c f r, Forall good_key l -> Forall good_key ixs -> column_ok c ->
  column_field cat l ixs added c = Ok (f, r) -> field_ok f /\ f_name f = go_name (col_name c).
Proof.
  intros cat l ixs added c f r Hl Hi Hc E. unfold column_field in E. cbv zeta in E. apply bindr_inv in E as (ty & Ty & E). apply bindr_inv in E as (rs & Rs & E).
  injection E as <- _. split; [|reflexivity]. pose proof Hc as (N & T & Dm & Co & Df). apply named_ok.
  - apply go_name_ident, N.
  - left. eapply field_types, Ty.
  - destruct (needs_quoting _); [apply word_no_tick, N|intros []].
  - repeat (apply Forall_app; split).
    + unfold type_modifier. destruct (negb (is_empty (col_domain c))); [constructor; [|constructor]; apply raw_good; [reflexivity|exact Dm]|].
      destruct (_ && _); [|constructor]. apply when_good. intros _. apply raw_good; [reflexivity|exact T].
    + apply when_good. intros _. apply flag_good. reflexivity.
    + apply on_column_good, Hl.
    + apply on_column_good, Hl.
    + eapply on_reference_good; [exact Hl|exact Rs].
    + destruct (col_autoincrement c); [|constructor]. destruct (ct_dialect cat); first [apply flag_list; reflexivity|constructor].
    + destruct (ct_dialect cat); try (constructor; fail); [|apply when_good; intros _; apply flag_good; reflexivity].
      destruct (beqb _ _); [apply flag_list; reflexivity|]. destruct (beqb _ _); [apply flag_list; reflexivity|constructor].
    + apply when_good. intro E. apply andb_true_iff in E as (_ & E). apply negb_true_iff in E. apply raw_good; [reflexivity|]. apply default_ok; assumption.
    + apply when_good. intros _. apply flag_good. reflexivity.
    + apply when_good. intros _. apply raw_good; [reflexivity|exact Co].
    + apply on_column_good, Hi.
    + apply when_good. intros _. apply flag_good. reflexivity.
Qed.
Lemma column_fields_ok : forall cat l ixs cs added fs r, Forall good_key l -> Forall good_key ixs ->
  (forall c, In c cs -> col_ignore c = false -> column_ok c) ->
  column_fields cat l ixs added cs = Ok (fs, r) ->
  Forall field_ok fs /\ forall c, In c cs -> col_ignore c = false -> exists f, In f fs /\ f_name f = go_name (col_name c).
Proof.
  intros cat l ixs. induction cs as [|c cs IH]; intros added fs r Hl Hi H E; cbn [column_fields] in E.
  - injection E as <- _. split; [constructor|intros c []].
  - destruct (col_ignore c) eqn:I.
    + destruct (IH added fs r Hl Hi ltac:(intros; apply H; [right|]; assumption) E) as (A & A'). split; [exact A|].
      intros c' [->|Hc'] I'; [congruence|auto].
    + apply bindr_inv in E as ((f & added') & Ef & E). apply bindr_inv in E as ((fs' & r') & Efs & E). injection E as <- _.
      destruct (column_field_ok _ _ _ _ _ _ _ Hl Hi (H c (or_introl eq_refl) I) Ef) as (F & Nf).
      destruct (IH _ _ _ Hl Hi ltac:(intros; apply H; [right|]; assumption) Efs) as (A & A'). split; [constructor; assumption|].
      intros c' [<-|Hc'] I'; [exists f; split; [left; reflexivity|exact Nf]|]. destruct (A' c' Hc' I') as (g & Hg & Ng). exists g. split; [right; exact Hg|exact Ng].
Qed.
Lemma remaining_ok : forall added l, Forall good_key l -> Forall field_ok (remaining added l).
Proof.
  intros added l H. unfold remaining. apply Forall_flat_map. rewrite Forall_forall in *. intros (i & m) Hm.
  assert (M : In m l) by (unfold indexed in Hm; apply in_combine_r in Hm; exact Hm). specialize (H _ M). destruct (existsb _ _); [constructor|].
  constructor; [|constructor]. apply named_ok; [reflexivity|right; reflexivity|intros []|]. constructor; [apply H|constructor].
Qed.
Lemma go_name_blank : forall n, go_name n = B"_" -> n = B"_" \/ n = B" ".
Proof.
  intros n H. destruct n as [|x [|y n]]; [discriminate| |].
  - destruct x as [[] [] [] [] [] [] [] []]; vm_compute in H; try discriminate; auto.
  - exfalso. unfold go_name, replace_byte, to_upper in H. cbn [flat_map] in H. rewrite !map_app in H.
    destruct (ceqb x SPACE), (ceqb y SPACE); cbn in H; discriminate.
Qed.
Lemma read_table_ok : forall cat t s, table_ok t -> read_table cat t = Ok s -> struct_ok s.
Proof.
  intros cat t s (N & Sc & Hc & (c & Cin & Ci & Cn1 & Cn2) & Hk & Hx) E. unfold read_table in E.
  set (virtual := when_ _ _) in E. set (cons := flat_map _ (tb_constraints t)) in E. set (ixs := map index_modifier _) in E.
  assert (Gv : Forall good_mod virtual) by (apply when_good; intros _; apply flag_good; reflexivity).
  assert (Gc : Forall good_key cons).
  { unfold cons. apply Forall_flat_map. rewrite Forall_forall. intros k Hkin. apply constraint_good. intro Ik. apply Hk; assumption. }
  assert (Gi : Forall good_key ixs).
  { unfold ixs. apply Forall_forall. intros m Hm. apply in_map_iff in Hm as (x & <- & Hxin). apply filter_In in Hxin as (Hxin & Hxs).
    apply andb_true_iff in Hxs as (Hxi & _). apply negb_true_iff in Hxi. apply index_good, Hx; assumption. }
  destruct (nest_indexes 0 cons ixs) as [l nested] eqn:En. assert (Gl : Forall good_key l) by (eapply nest_good; [exact Gi|exact Gc|exact En]).
  apply bindr_inv in E as ((fields & (added & added_ixs)) & Ef & E).
  destruct (column_fields_ok _ _ _ _ _ _ _ Gl Gi Hc Ef) as (Ff & Fc).
  set (choice := match primarykey_entry l with Some p => _ | None => _ end) in E. destruct choice as [mods added'] eqn:Ech.
  assert (Gm : Forall good_mod mods).
  { unfold choice in Ech. destruct (primarykey_entry l) as [p|]; [|injection Ech as <- _; exact Gv].
    destruct (existsb _ _); [injection Ech as <- _; exact Gv|]. injection Ech as <- _. destruct (nth_error l p) as [m|] eqn:Em; [|exact Gv].
    constructor; [|constructor]. eapply (proj1 (Forall_forall good_key l)) in Gl; [|eapply nth_error_In; exact Em]. apply Gl. }
  injection E as <-. split; [apply go_name_ident, N|]. cbn [ts_fields]. split; [eexists; eexists; split; [reflexivity|split; reflexivity]|]. split.
  - constructor.
    + repeat split; cbn [f_name f_type f_tag f_mods].
      * left. split; [reflexivity|]. exists (B"TableStruct"). split; reflexivity.
      * unfold table_tag. pose proof (word_no_tick _ N). destruct (_ || _); [|intros []]. destruct (is_empty _); [assumption|].
        rewrite !in_app_iff. intros [X|[X|X]]; [contradiction|destruct X as [X|[]]; discriminate|contradiction].
      * eapply Forall_impl; [|exact Gm]. intros m (A & _). exact A.
      * eapply Forall_impl; [|exact Gm]. intros m (_ & A & _). exact A.
      * apply long_start_good, Gm.
    + repeat (apply Forall_app; split); [exact Ff|apply remaining_ok, Gl|apply remaining_ok, Gi].
  - destruct (Fc c Cin Ci) as (f & Hf & Nf). exists f. split; [right; apply in_or_app; left; exact Hf|]. rewrite Nf. split.
    + intro X. destruct (Hc c Cin Ci) as (Nc & _). apply go_name_ident in Nc. rewrite X in Nc. discriminate.
    + intro X. apply go_name_blank in X as [X|X]; contradiction.
Qed.
Theorem read_catalog_ok : forall cat l, writable cat -> read_catalog cat = Ok l -> Forall struct_ok l.
Proof.
  intros cat l W. unfold read_catalog.
  assert (H : Forall table_ok (flat_map sc_tables (ct_schemas cat))).
  { apply Forall_flat_map. apply Forall_forall. intros s Hs. apply Forall_forall. intros t Ht. eapply W; eassumption. }
  revert l. induction H as [|t ts Ht H IH]; intros l E; cbn [mapr] in E; [injection E as <-; constructor|].
  apply bindr_inv in E as (s & Es & E). apply bindr_inv in E as (ss & Ess & E). injection E as <-. constructor; [eapply read_table_ok; eassumption|apply IH, Ess].
Qed.
