(** Storing what was read into a variable: the result is the overlay. *)
From Coq Require Import Lia ZifyN ZifyBool.
From Verif Require Import GoStr GoStrFacts ModelArray SpecArray ArrayFacts PropArray ModelJson SpecJson JsonFacts.

Lemma gval_ind' : forall (P : gval -> Prop), (forall s, P (GString s)) -> (forall b, P (GBool b)) -> (forall z, P (GInt z)) ->
  (forall l, Forall P l -> P (GList l)) -> (forall m, P (GMap m)) -> (forall vs, Forall (fun v => P (snd v)) vs -> P (GStruct vs)) -> forall v, P v.
Proof.
  intros P H1 H2 H3 H4 H5 H6. fix IH 1. intros [s|b|z|l|m|vs]; [apply H1|apply H2|apply H3| |apply H5|].
  - apply H4. induction l as [|x l IHl]; constructor; [apply IH|exact IHl].
  - apply H6. induction vs as [|x l IHl]; constructor; [apply IH|exact IHl].
Qed.
(** The names of the fields of a struct are different. *)
Inductive good : shape -> Prop :=
| good_string : good TString | good_bool : good TBool | good_int : good TInt | good_map : good TMap
| good_list t : good t -> good (TList t)
| good_struct fs : NoDup (map fst fs) -> Forall (fun f => good (snd f) /\ utf8 (fst f)) fs -> good (TStruct fs).
Lemma good_ind' : forall (P : shape -> Prop), P TString -> P TBool -> P TInt -> P TMap -> (forall t, P t -> P (TList t)) ->
  (forall fs, NoDup (map fst fs) -> Forall (fun f => P (snd f)) fs -> P (TStruct fs)) -> forall t, good t -> P t.
Proof.
  intros P H1 H2 H3 H4 H5 H6. fix IH 2. intros t H. destruct H as [| | | |t G|fs N F]; [assumption|assumption|assumption|assumption|apply H5, IH, G|].
  apply H6; [exact N|]. clear N. induction F as [|f fs Hf F IHf]; constructor; [apply IH, Hf|exact IHf].
Qed.
Lemma zero_fits : forall t, good t -> fits t (zero t).
Proof.
  intros t G. induction G as [| | | |t G|fs N F] using good_ind'; cbn [zero]; try (constructor; (exact Logic.I || lia || constructor)).
  constructor. clear N. induction F as [|f fs Hf F IH]; cbn [map]; constructor; [split; [reflexivity|exact Hf]|exact IH].
Qed.
Lemma left_out_empty : forall v, left_out v = empty_value v.
Proof. intros [[|? ?]|[]|[| |]|[|? ?]|[|? ?]|?]; reflexivity. Qed.

(** ** What is written *)
Lemma tree_plain : forall v t, good t -> fits t v -> texts_utf8 v -> plain (tree v).
Proof.
  intros v. induction v as [s|b|z|l IH|m|vs IH] using gval_ind'; intros t G F U; cbn [tree]; inversion F; subst; inversion U; subst; inversion G; subst.
  - constructor; assumption.
  - destruct b; constructor.
  - constructor.
  - constructor. apply Forall_forall. intros j I. apply in_map_iff in I. destruct I as (v & <- & I). rewrite Forall_forall in *. eapply IH; eauto.
  - constructor. apply Forall_forall. intros j I. apply in_map_iff in I. destruct I as (p & <- & I). rewrite Forall_forall in *.
    match goal with H : forall x, In x m -> utf8 _ /\ _ |- _ => destruct (H p I) end. split; [|constructor]; assumption.
  - constructor. apply Forall_forall. intros j I. apply in_flat_map in I. destruct I as (f & I & J). destruct (empty_value (snd f)); [destruct J|].
    destruct J as [<-|[]]. cbn [fst snd].
    match goal with H : Forall2 _ fs vs |- _ => assert (exists g, In g fs /\ fst g = fst f /\ fits (snd g) (snd f)) as (g & Ig & Eg & Fg)
      by (clear - H I; induction H as [|? ? ? ? (? & ?) ? IHf]; [destruct I|destruct I as [<-|I]; [eexists; split; [left; reflexivity|split; assumption]|destruct (IHf I) as (g & ? & ?); exists g; split; [right; assumption|assumption]]]) end.
    rewrite Forall_forall in *. match goal with H : forall x, In x fs -> good _ /\ _ |- _ => destruct (H g Ig) as (Gg & Ug) end.
    split; [rewrite <- Eg; exact Ug|]. eapply IH; eauto.
Qed.

(** ** Maps *)
Lemma put_with_key : forall m k v, ordered m -> put_key m k v = with_key m (k, v).
Proof.
  unfold with_key. induction m as [|p m IH]; intros k v O; [reflexivity|]. destruct O as (Op & Om). cbn [put_key fst].
  assert (A : forall q, In q m -> bltb k (fst p) = true -> bltb k (fst q) = true) by (intros q I L; eapply bltb_trans; [exact L|apply Op, I]).
  assert (All : (forall q, In q m -> bltb k (fst q) = true) -> filter (fun q => bltb (fst q) k) m = [] /\ filter (fun q => bltb k (fst q)) m = m).
  { intros H. clear - H. induction m as [|q m IH]; [split; reflexivity|]. destruct IH as (I1 & I2); [intros x Ix; apply H; right; exact Ix|].
    pose proof (H q (or_introl eq_refl)) as L. cbn [filter]. rewrite (bltb_asym _ _ L), L, I1, I2. split; reflexivity. }
  cbn [filter fst snd]. destruct (beqb (fst p) k) eqn:E.
  - apply beqb_eq in E. subst k. rewrite bltb_irrefl. destruct (All Op) as (-> & ->). reflexivity.
  - apply beqb_neq in E. destruct (bltb (fst p) k) eqn:L.
    + rewrite (bltb_asym _ _ L). cbn [app]. rewrite IH by exact Om. reflexivity.
    + destruct (bltb_total _ _ E) as [X|X]; [congruence|]. rewrite X. destruct (All (fun q I => A q I X)) as (-> & ->). reflexivity.
Qed.
Lemma with_key_in : forall m p q, In q (with_key m p) -> q = p \/ In q m /\ (bltb (fst q) (fst p) = true \/ bltb (fst p) (fst q) = true).
Proof. intros m p q I. unfold with_key in I. apply in_app_iff in I. destruct I as [I|[I|I]]; [|left; symmetry; exact I|]; apply filter_In in I; tauto. Qed.
Lemma with_key_ordered : forall m p, ordered m -> ordered (with_key m p).
Proof.
  intros m [k v] O. rewrite <- put_with_key by exact O. induction m as [|q m IH]; [repeat split; intros ? []|]. destruct O as (Oq & Om). cbn [put_key].
  destruct (beqb (fst q) k) eqn:E; [apply beqb_eq in E; subst k; split; [exact Oq|exact Om]|]. apply beqb_neq in E. destruct (bltb (fst q) k) eqn:L.
  - split; [|apply IH, Om]. intros x I. rewrite put_with_key in I by exact Om. destruct (with_key_in _ _ _ I) as [->|(J & _)]; [exact L|apply Oq, J].
  - destruct (bltb_total _ _ E) as [X|X]; [congruence|]. split; [|split; [exact Oq|exact Om]]. intros x [<-|I]; [exact X|]. eapply bltb_trans; [exact X|apply Oq, I].
Qed.
Lemma with_keys_ordered : forall l m, ordered m -> ordered (fold_left with_key l m).
Proof. induction l as [|p l IH]; intros m O; [exact O|]. cbn [fold_left]. apply IH, with_key_ordered, O. Qed.
Definition store_map := fix store (ms : list (bytes * jtree)) (m : list (bytes * bytes)) {struct ms} : result (list (bytes * bytes)) :=
  match ms with
  | [] => Ok m
  | (k, TText s) :: ms' => store ms' (put_key m k s)
  | (k, TNull) :: ms' => store ms' (put_key m k [])
  | _ => Err
  end.
Lemma store_map_ok : forall l m, ordered m -> store_map (map (fun p => (fst p, TText (snd p))) l) m = Ok (fold_left with_key l m).
Proof.
  induction l as [|[k v] l IH]; intros m O; [reflexivity|]. cbn [map store_map fold_left fst snd]. rewrite put_with_key by exact O. apply IH, with_key_ordered, O.
Qed.
Lemma keys_of_nothing : forall l m, ordered l -> ordered m -> (forall p q, In p m -> In q l -> bltb (fst p) (fst q) = true) -> fold_left with_key l m = m ++ l.
Proof.
  induction l as [|p l IH]; intros m Ol Om H; [symmetry; apply app_nil_r|]. destruct Ol as (Op & Ol). cbn [fold_left].
  assert (E : with_key m p = m ++ [p]).
  { unfold with_key. assert (filter (fun q => bltb (fst q) (fst p)) m = m /\ filter (fun q => bltb (fst p) (fst q)) m = []) as (-> & ->); [|reflexivity].
    assert (L : forall q, In q m -> bltb (fst q) (fst p) = true) by (intros q I; apply H; [exact I|left; reflexivity]). clear - L.
    induction m as [|q m IH]; [split; reflexivity|]. destruct IH as (I1 & I2); [intros x I; apply L; right; exact I|]. pose proof (L q (or_introl eq_refl)) as K.
    cbn [filter]. rewrite K, (bltb_asym _ _ K), I1, I2. split; reflexivity. }
  pose proof (with_key_ordered m p Om) as O. rewrite E in *. rewrite IH; [rewrite <- app_assoc; reflexivity|exact Ol|exact O|].
  intros x q Ix Iq. apply in_app_iff in Ix. destruct Ix as [Ix|[<-|[]]]; [apply H; [exact Ix|right; exact Iq]|apply Op, Iq].
Qed.

(** ** Lists and structs *)
Definition store_list (e : shape) := fix store (js : list jtree) (os : list gval) {struct js} : result (list gval) :=
  match js with
  | [] => Ok []
  | j :: js' => bindr (assign e (match os with o :: _ => o | [] => zero e end) j) (fun v => bindr (store js' (List.tl os)) (fun l => Ok (v :: l)))
  end.
Definition store_fields (fs : list (bytes * shape)) := fix store (ms : list (bytes * jtree)) (vs : list (bytes * gval)) {struct ms} : result (list (bytes * gval)) :=
  match ms with
  | [] => Ok vs
  | p :: ms' =>
      let (k, x) := p in
      match field_for fs k with
      | Some f => bindr (assign (snd f) (field_value vs (fst f)) x) (fun v => store ms' (set_field vs (fst f) v))
      | None => store ms' vs
      end
  end.
Definition both_lists := fix both (os ns : list gval) {struct ns} :=
  match ns, os with
  | [], _ => []
  | n :: ns', o :: os' => overlay o n :: both os' ns'
  | n :: ns', [] => n :: both [] ns'
  end.
Definition both_fields := fix both (os ns : list (bytes * gval)) {struct ns} :=
  match os, ns with
  | o :: os', n :: ns' => (fst n, if left_out (snd n) then snd o else overlay (snd o) (snd n)) :: both os' ns'
  | _, _ => []
  end.
Lemma empty_is_zero : forall t v, fits t v -> left_out v = true -> v = zero t.
Proof.
  intros t v F E. destruct F as [s|b|z R|t l F|m O|fs vs F]; cbn in *.
  - destruct s; [reflexivity|discriminate].
  - destruct b; [discriminate|reflexivity].
  - assert (z = 0)%Z as -> by lia. reflexivity.
  - destruct l; [reflexivity|discriminate].
  - destruct m; [reflexivity|discriminate].
  - discriminate.
Qed.
(** Over the zero value nothing changes. *)
Lemma overlay_zero : forall v t, fits t v -> overlay (zero t) v = v.
Proof.
  intros v. induction v as [s|b|z|l IH|m|vs IH] using gval_ind'; intros t F; inversion F; subst; try reflexivity.
  - cbn [zero overlay]. change (GList (both_lists [] l) = GList l). f_equal. clear. induction l as [|x l IH]; [reflexivity|]. cbn [both_lists]. rewrite IH. reflexivity.
  - cbn [zero overlay]. rewrite keys_of_nothing; [reflexivity|assumption|exact Logic.I|intros p q []].
  - cbn [zero overlay]. change (GStruct (both_fields (map (fun f => (fst f, zero (snd f))) fs) vs) = GStruct vs). f_equal.
    match goal with H : Forall2 _ fs vs |- _ => clear F; induction H as [|f v fs vs (Ef & Ff) H IHf] end; [reflexivity|]. inversion IH as [|? ? IHv IHvs]; subst.
    cbn [map both_fields snd]. rewrite IHf by exact IHvs. destruct v as [k v]. cbn [fst snd] in *. f_equal. f_equal.
    destruct (left_out v) eqn:E; [symmetry; apply empty_is_zero; assumption|apply IHv, Ff].
Qed.
Lemma find_field : forall fs1 f fs2, NoDup (map fst (fs1 ++ f :: fs2)) -> field_for (fs1 ++ f :: fs2) (fst f) = Some f.
Proof.
  intros fs1 f fs2 N. unfold field_for. enough (find (fun g => beqb (fst g) (fst f)) (fs1 ++ f :: fs2) = Some f) as -> by reflexivity.
  induction fs1 as [|g fs1 IH]; cbn [app find map] in *; [rewrite beqb_refl; reflexivity|]. inversion N as [|? ? N1 N2]; subst.
  assert (beqb (fst g) (fst f) = false) as ->; [|apply IH, N2]. apply beqb_neq. intros E. apply N1. rewrite E. apply in_map, in_app_iff. right. left. reflexivity.
Qed.
Lemma value_there : forall (vs1 : list (bytes * gval)) k x vs2, ~ In k (map fst vs1) -> field_value (vs1 ++ (k, x) :: vs2) k = x.
Proof.
  induction vs1 as [|v vs1 IH]; intros k x vs2 N; cbn [app field_value fst snd map] in *; [rewrite beqb_refl; reflexivity|].
  assert (beqb (fst v) k = false) as -> by (apply beqb_neq; intros E; apply N; left; exact E). apply IH. intros I. apply N. right. exact I.
Qed.
Lemma set_there : forall (vs1 : list (bytes * gval)) k x y vs2, ~ In k (map fst vs1) -> set_field (vs1 ++ (k, x) :: vs2) k y = vs1 ++ (k, y) :: vs2.
Proof.
  induction vs1 as [|v vs1 IH]; intros k x y vs2 N; cbn [app set_field fst snd map] in *; [rewrite beqb_refl; reflexivity|].
  assert (beqb (fst v) k = false) as -> by (apply beqb_neq; intros E; apply N; left; exact E). rewrite IH by (intros I; apply N; right; exact I). reflexivity.
Qed.
Lemma both_fields_names : forall os ns, Forall2 (fun o n : bytes * gval => fst o = fst n) os ns -> map fst (both_fields os ns) = map fst ns.
Proof. intros os ns H. induction H as [|o n os ns E H IH]; [reflexivity|]. cbn [both_fields map fst]. rewrite IH. reflexivity. Qed.

(** The overlay is what is stored. *)
Lemma assign_tree : forall new t, good t -> fits t new -> forall old, fits t old -> assign t old (tree new) = Ok (overlay old new).
Proof.
  intros new. induction new as [s|b|z|l IH|m|vs IH] using gval_ind'; intros t G F old O; inversion F; subst; inversion G; subst; inversion O; subst.
  - reflexivity.
  - destruct b; reflexivity.
  - cbn [tree assign]. rewrite parse_dec by assumption. reflexivity.
  - cbn [tree assign overlay]. change (bindr (store_list t0 (map tree l) l0) (fun l1 => Ok (GList l1)) = Ok (GList (both_lists l0 l))).
    enough (store_list t0 (map tree l) l0 = Ok (both_lists l0 l)) as -> by reflexivity.
    repeat match goal with H : fits _ (GList _) |- _ => clear H | H : good (TList _) |- _ => clear H end.
    match goal with H : Forall (fits t0) l |- _ => rename H into Fl end. match goal with H : Forall (fits t0) l0 |- _ => rename H into Fo end.
    revert l0 Fo. induction l as [|x l IHl]; intros os Fo; [reflexivity|]. inversion IH as [|? ? IHx IHr]; subst. inversion Fl as [|? ? Fx Fr]; subst.
    cbn [map store_list]. destruct os as [|o os].
    + rewrite (IHx t0) by (try assumption; apply zero_fits; assumption). cbn [bindr List.tl]. rewrite IHl by assumption. cbn [bindr both_lists].
      rewrite overlay_zero by exact Fx. reflexivity.
    + inversion Fo; subst. rewrite (IHx t0) by assumption. cbn [bindr List.tl]. rewrite IHl by assumption. reflexivity.
  - cbn [tree assign overlay]. change (bindr (store_map (map (fun p => (fst p, TText (snd p))) m) m0) (fun m1 => Ok (GMap m1)) = Ok (GMap (fold_left with_key m m0))).
    rewrite store_map_ok by assumption. reflexivity.
  - cbn [tree assign overlay].
    change (bindr (store_fields fs (flat_map (fun f => if empty_value (snd f) then [] else [(fst f, tree (snd f))]) vs) vs0) (fun m1 => Ok (GStruct m1)) = Ok (GStruct (both_fields vs0 vs))).
    enough (store_fields fs (flat_map (fun f => if empty_value (snd f) then [] else [(fst f, tree (snd f))]) vs) vs0 = Ok (both_fields vs0 vs)) as -> by reflexivity.
    match goal with H : NoDup _ |- _ => rename H into N end. match goal with H : Forall _ fs |- _ => rename H into Gf end.
    match goal with H : Forall2 _ fs vs |- _ => rename H into Fn end. match goal with H : Forall2 _ fs vs0 |- _ => rename H into Fo end.
    assert (K : forall fs1 fs2 done os ns, fs = fs1 ++ fs2 -> map fst done = map fst fs1 -> Forall (fun v => forall t, good t -> fits t (snd v) -> forall old, fits t old -> assign t old (tree (snd v)) = Ok (overlay old (snd v))) ns ->
      Forall2 (fun f v => fst f = fst v /\ fits (snd f) (snd v)) fs2 os -> Forall2 (fun f v => fst f = fst v /\ fits (snd f) (snd v)) fs2 ns ->
      store_fields fs (flat_map (fun f => if empty_value (snd f) then [] else [(fst f, tree (snd f))]) ns) (done ++ os) = Ok (done ++ both_fields os ns)).
    { intros fs1 fs2. revert fs1. induction fs2 as [|f fs2 IHf]; intros fs1 done os ns E D I Ho Hn; inversion Ho as [|? [k o] ? l' (E1 & F1) Ho']; subst; inversion Hn as [|? [k' n] ? l'0 (E2 & F2) Hn']; subst; [reflexivity|].
      cbn [fst snd] in *. subst k k'. inversion I as [|? ? In0 In1]; subst.
      cbn [flat_map snd fst both_fields]. rewrite <- left_out_empty. destruct (left_out n) eqn:L.
      - cbn [app]. change ((fst f, o) :: l') with ([(fst f, o)] ++ l'). rewrite app_assoc.
        rewrite (IHf (fs1 ++ [f]) (done ++ [(fst f, o)]) l' l'0); [rewrite <- app_assoc; reflexivity|rewrite <- app_assoc; reflexivity|rewrite !map_app, D; reflexivity|assumption..].
      - cbn [app]. change (store_fields (fs1 ++ f :: fs2) ((fst f, tree n) :: ?ms) ?vs) with
          (match field_for (fs1 ++ f :: fs2) (fst f) with Some f' => bindr (assign (snd f') (field_value vs (fst f')) (tree n)) (fun v => store_fields (fs1 ++ f :: fs2) ms (set_field vs (fst f') v)) | None => store_fields (fs1 ++ f :: fs2) ms vs end).
        rewrite find_field by exact N.
        assert (NI : ~ In (fst f) (map fst done)).
        { rewrite D. rewrite map_app in N. cbn [map] in N. apply NoDup_remove_2 in N. intros X. apply N, in_app_iff. left. exact X. }
        rewrite value_there by exact NI. cbn [fst snd] in In0. rewrite (In0 (snd f)); [|apply Forall_app in Gf; destruct Gf as (_ & Gf); inversion Gf as [|? ? (? & ?)]; subst; assumption|exact F2|exact F1].
        cbn [bindr]. rewrite set_there by exact NI. change ((fst f, overlay o n) :: l') with ([(fst f, overlay o n)] ++ l'). rewrite app_assoc.
        rewrite (IHf (fs1 ++ [f]) (done ++ [(fst f, overlay o n)]) l' l'0); [rewrite <- app_assoc; reflexivity|rewrite <- app_assoc; reflexivity|rewrite !map_app, D; reflexivity|assumption..]. }
    apply (K [] fs []); [reflexivity|reflexivity|exact IH|exact Fo|exact Fn].
Qed.
Lemma decode_encode : forall t new old, good t -> fits t new -> texts_utf8 new -> fits t old -> decode_into t (encode_value new) old = Ok (overlay old new).
Proof.
  intros t new old G F U O. unfold decode_into, encode_value. destruct (read_file (tree new) (tree_plain _ _ G F U)) as (r & ->). apply assign_tree; assumption.
Qed.
