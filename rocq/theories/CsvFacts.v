(** Proofs about the CSV files: a file that was written is read back. *)
From Verif Require Import GoStr GoStrFacts ModelSq ModelDdl ModelCsv SpecCsv.

Local Notation nl := (replace2 CR LF [LF]).

Lemma nl_cons x s : nl (x :: s) = match s with
  | y :: s'' => if ceqb x CR && ceqb y LF then LF :: nl s'' else x :: nl s
  | [] => [x] end.
Proof. destruct s; reflexivity. Qed.
Lemma bytes_ind2 (P : bytes -> Prop) : P [] -> (forall x, P [x]) -> (forall x y s, P s -> P (y :: s) -> P (x :: y :: s)) -> forall s, P s.
Proof.
  intros P0 P1 P2 s. assert (H : P s /\ forall x, P (x :: s)).
  { induction s as [|y s [IH1 IH2]]; [split; auto|]. split; [apply IH2|]. intros x. apply P2; [exact IH1|apply IH2]. }
  exact (proj1 H).
Qed.
Lemma nl_lf_of s : lf_of s (nl s).
Proof.
  induction s as [|x|x y s IH1 IH2] using bytes_ind2; [constructor|constructor; [constructor|right; discriminate]|].
  rewrite nl_cons. destruct (ceqb_spec x CR) as [->|Hx].
  - destruct (ceqb_spec y LF) as [->|Hy]; cbn [andb].
    + constructor. exact IH1.
    + constructor; [exact IH2|]. right. intros r [= E _]. auto.
  - cbn [andb]. constructor; auto.
Qed.
Lemma lf_of_fun s a : lf_of s a -> forall b, lf_of s b -> a = b.
Proof.
  induction 1 as [|s s' H IH|c s s' H IH N]; intros b I; inversion I as [|u u' J|e u u' J M]; subst; auto.
  - f_equal. auto.
  - exfalso. destruct M as [M|M]; [exact (M eq_refl)|exact (M _ eq_refl)].
  - exfalso. destruct N as [N|N]; [exact (N eq_refl)|exact (N _ eq_refl)].
  - f_equal. auto.
Qed.
Lemma nl_id s : no_crlf s -> nl s = s.
Proof.
  induction s as [|x|x y s IH1 IH2] using bytes_ind2; intros H; [reflexivity..|]. rewrite nl_cons.
  destruct (ceqb_spec x CR) as [->|Hx]; [destruct (ceqb_spec y LF) as [->|Hy]|]; cbn [andb].
  - exfalso. exact (H [] s eq_refl).
  - f_equal. apply IH2. intros a b E. apply (H (CR :: a) b). rewrite E. reflexivity.
  - f_equal. apply IH2. intros a b E. apply (H (x :: a) b). rewrite E. reflexivity.
Qed.
Lemma nl_app (a : bytes) c b : c <> LF -> nl (a ++ c :: b) = nl a ++ nl (c :: b).
Proof.
  intros Hc. induction a as [|x|x y a IH1 IH2] using bytes_ind2; cbn [app]; [reflexivity| |].
  - rewrite nl_cons. destruct (ceqb_spec c LF); [contradiction|]. rewrite andb_false_r. reflexivity.
  - cbn [app] in IH2. rewrite !nl_cons. destruct (ceqb x CR && ceqb y LF); [cbn [app]; f_equal; exact IH1|]. cbn [app]. f_equal. exact IH2.
Qed.
Lemma nl_char c s : c <> CR -> nl (c :: s) = c :: nl s.
Proof. intros H. rewrite nl_cons. destruct s; [reflexivity|]. destruct (ceqb_spec c CR); [contradiction|]. reflexivity. Qed.
Lemma nl_plain a s : ~ In CR a -> nl (a ++ s) = a ++ nl s.
Proof.
  induction a as [|x a IH]; cbn [app In]; intros H; [reflexivity|]. rewrite nl_char by (intros ->; auto). f_equal. auto.
Qed.
Lemma nl_double (s : bytes) : nl (replace_byte dquote [dquote; dquote] s) = replace_byte dquote [dquote; dquote] (nl s).
Proof.
  induction s as [|x|x y s IH1 IH2] using bytes_ind2; [reflexivity| |].
  - unfold replace_byte. cbn [flat_map replace2]. destruct (ceqb_spec x dquote) as [->|H]; reflexivity.
  - rewrite (nl_cons x). destruct (ceqb_spec x CR) as [->|Hx]; [destruct (ceqb_spec y LF) as [->|Hy]|]; cbn [andb].
    + unfold replace_byte in *. cbn [flat_map]. change (ceqb CR dquote) with false. change (ceqb LF dquote) with false. cbn [app].
      rewrite nl_cons. cbn. f_equal. exact IH1.
    + unfold replace_byte in *. cbn [flat_map]. change (ceqb CR dquote) with false. cbn [app].
      assert (E : exists c r, c <> LF /\ (if ceqb y dquote then [dquote; dquote] else [y]) ++ flat_map (fun x => if ceqb x dquote then [dquote; dquote] else [x]) s = c :: r).
      { destruct (ceqb_spec y dquote); [exists dquote|exists y]; eexists; (split; [|reflexivity]); [intros D; discriminate D|exact Hy]. }
      destruct E as (c & r & Hc & E). cbn [flat_map] in IH2. unfold bytes in *. rewrite E in *. rewrite nl_cons. destruct (ceqb_spec c LF); [contradiction|].
      rewrite andb_false_r. f_equal. exact IH2.
    + assert (E : replace_byte dquote [dquote; dquote] (x :: y :: s) = (if ceqb x dquote then [dquote; dquote] else [x]) ++ replace_byte dquote [dquote; dquote] (y :: s)) by reflexivity.
      rewrite E, nl_plain.
      * rewrite IH2. unfold replace_byte. reflexivity.
      * destruct (ceqb x dquote); cbn [In]; [intros [D|[D|[]]]; discriminate D|intros [D|[]]; auto].
Qed.

(** ** Fields *)
Definition quoted (f : bytes) : bytes := [dquote] ++ replace_byte dquote [dquote; dquote] f ++ [dquote].
(** Text that needs no quotes. *)
Definition bare (f : bytes) : Prop := ~ In LF f /\ ~ In CR f /\ ~ In dquote f /\ ~ In comma f.
Lemma not_quoted sp f : needs_quotes sp f = false -> bare f.
Proof.
  destruct f as [|c f]; intros H; [unfold bare; cbn; intuition|]. unfold needs_quotes in H. apply orb_false_iff in H as [H _]. apply orb_false_iff in H as [H _].
  apply orb_false_iff in H as [_ H].
  assert (K : forall x, In x (c :: f) -> x <> LF /\ x <> CR /\ x <> dquote /\ x <> comma).
  { intros x I. destruct (ceqb x LF || ceqb x CR || ceqb x dquote || ceqb x comma) eqn:E.
    - assert (T : existsb (fun x => ceqb x LF || ceqb x CR || ceqb x dquote || ceqb x comma) (c :: f) = true) by (apply existsb_exists; eauto). congruence.
    - rewrite !orb_false_iff in E. destruct E as (((E1 & E2) & E3) & E4).
      destruct (ceqb_spec x LF), (ceqb_spec x CR), (ceqb_spec x dquote), (ceqb_spec x comma); try discriminate; auto. }
  repeat split; intros I; apply K in I; intuition.
Qed.
Lemma nl_bare f : bare f -> nl f = f.
Proof. intros (_ & H & _). rewrite <- (app_nil_r f) at 1. rewrite nl_plain by exact H. cbn. apply app_nil_r. Qed.
(** The field with its delimiter after normalising line ends. *)
Lemma nl_field sp f c s : c <> CR -> nl (csv_field sp f ++ c :: s)
  = (if needs_quotes sp f then quoted (nl f) else nl f) ++ c :: nl s.
Proof.
  intros Hc. unfold csv_field. destruct (needs_quotes sp f) eqn:E.
  - cbn [app]. rewrite nl_char by discriminate. rewrite <- app_assoc. cbn [app].
    rewrite nl_app by discriminate. rewrite nl_double, nl_char by discriminate. rewrite nl_char by exact Hc.
    unfold quoted. cbn [app]. rewrite <- app_assoc. reflexivity.
  - apply not_quoted in E. rewrite (nl_bare f E), nl_plain by apply E. rewrite nl_char by exact Hc. reflexivity.
Qed.

Definition enc (q : bool) (f : bytes) : bytes := if q then quoted f else f.
Definition enc_ok (p : bool * bytes) : Prop := fst p = false -> bare (snd p).
Fixpoint enc_line (l : list (bool * bytes)) : bytes :=
  match l with
  | [] => []
  | [(q, f)] => enc q f
  | (q, f) :: l' => enc q f ++ comma :: enc_line l'
  end.
Lemma join_cons sep a b l : join sep (a :: b :: l) = a ++ sep ++ join sep (b :: l).
Proof. reflexivity. Qed.
Lemma nl_line sp r s : nl (csv_line sp r ++ s) = enc_line (map (fun f => (needs_quotes sp f, nl f)) r) ++ LF :: nl s.
Proof.
  unfold csv_line. rewrite <- app_assoc. cbn [app]. induction r as [|f r IH].
  - cbn. apply nl_char. discriminate.
  - destruct r as [|g r].
    + cbn [map join enc_line]. rewrite nl_field by discriminate. reflexivity.
    + cbn [map]. rewrite join_cons, <- !app_assoc. cbn [app]. rewrite nl_field by discriminate. cbn [map] in IH. rewrite IH.
      cbn [enc_line]. rewrite <- app_assoc. reflexivity.
Qed.
Lemma enc_lines_ok sp r : Forall enc_ok (map (fun f => (needs_quotes sp f, nl f)) r).
Proof.
  induction r as [|f r IH]; cbn [map]; constructor; [|exact IH]. intros E. cbn [fst snd] in E |- *. apply not_quoted in E. rewrite (nl_bare f E). exact E.
Qed.

(** ** Reading *)
Lemma read_plain f c s cur rec m : ~ In LF f -> ~ In comma f -> c = comma \/ c = LF ->
  m = Plain -> csv_read (f ++ c :: s) m cur rec
  = if ceqb c comma then csv_read s FieldStart [] (rev (rev f ++ cur) :: rec) else rev (rev (rev f ++ cur) :: rec) :: csv_read s RecordStart [] [].
Proof.
  intros H1 H2 Hc ->. revert cur. induction f as [|x f IH]; intros cur; cbn [app In rev] in *.
  - cbn [csv_read]. destruct Hc as [->| ->]; reflexivity.
  - cbn [csv_read]. destruct (ceqb_spec x comma) as [->|]; [exfalso; auto|]. destruct (ceqb_spec x LF) as [->|]; [exfalso; auto|].
    rewrite IH by auto. cbn [rev]. rewrite <- app_assoc. reflexivity.
Qed.
Lemma read_quoted f c s cur rec : c = comma \/ c = LF ->
  csv_read (replace_byte dquote [dquote; dquote] f ++ dquote :: c :: s) Quoted cur rec
  = if ceqb c comma then csv_read s FieldStart [] (rev (rev f ++ cur) :: rec) else rev (rev (rev f ++ cur) :: rec) :: csv_read s RecordStart [] [].
Proof.
  intros Hc. revert cur. induction f as [|x f IH]; intros cur.
  - cbn [replace_byte flat_map app rev csv_read]. destruct Hc as [->| ->]; reflexivity.
  - unfold replace_byte in *. cbn [flat_map rev]. destruct (ceqb_spec x dquote) as [->|Hx].
    + cbn [app csv_read]. change (ceqb dquote dquote) with true. cbn [app]. rewrite IH, <- app_assoc. reflexivity.
    + cbn [app csv_read]. destruct (ceqb_spec x dquote); [contradiction|]. rewrite IH, <- app_assoc. reflexivity.
Qed.
Lemma read_field q f c s rec m : enc_ok (q, f) -> c = comma \/ c = LF -> m = FieldStart \/ (m = RecordStart /\ rec = [] /\ (c = comma \/ enc q f <> [])) ->
  csv_read (enc q f ++ c :: s) m [] rec
  = if ceqb c comma then csv_read s FieldStart [] (f :: rec) else rev (f :: rec) :: csv_read s RecordStart [] [].
Proof.
  intros Ok Hc Hm. destruct q; cbn [enc fst snd] in *.
  - unfold quoted. rewrite <- !app_assoc. cbn [app].
    assert (E : csv_read (dquote :: replace_byte dquote [dquote; dquote] f ++ dquote :: c :: s) m [] rec
      = csv_read (replace_byte dquote [dquote; dquote] f ++ dquote :: c :: s) Quoted [] rec)
      by (destruct Hm as [->|(-> & _)]; reflexivity).
    rewrite E, read_quoted by exact Hc. rewrite app_nil_r, rev_involutive. reflexivity.
  - specialize (Ok eq_refl). destruct Ok as (H1 & H2 & H3 & H4). cbn [snd] in *. destruct f as [|x f]; cbn [app].
    + destruct Hc as [->| ->]; cbn [csv_read].
      * destruct Hm as [->|(-> & _)]; reflexivity.
      * destruct Hm as [->|(_ & _ & [D|D])]; [reflexivity|discriminate D|contradiction].
    + cbn [In] in *. cbn [csv_read].
      assert (E : forall k1 k2 k3 k4 : list (list bytes), (if ceqb x LF then k1 else if ceqb x dquote then k2 else if ceqb x comma then k3 else k4) = k4).
      { intros. destruct (ceqb_spec x LF) as [->|]; [exfalso; auto|]. destruct (ceqb_spec x dquote) as [->|]; [exfalso; auto|].
        destruct (ceqb_spec x comma) as [->|]; [exfalso; auto|]. reflexivity. }
      assert (G : csv_read (f ++ c :: s) Plain [x] rec
        = (if ceqb c comma then csv_read s FieldStart [] ((x :: f) :: rec) else rev ((x :: f) :: rec) :: csv_read s RecordStart [] [])).
      { rewrite (read_plain f c s [x] rec Plain) by auto. rewrite rev_app_distr, rev_involutive. reflexivity. }
      destruct Hm as [->|(-> & _)]; rewrite E; exact G.
Qed.
Lemma read_fields l s rec : Forall enc_ok l -> l <> [] ->
  csv_read (enc_line l ++ LF :: s) FieldStart [] rec = (rev rec ++ map snd l) :: csv_read s RecordStart [] [].
Proof.
  intros Ok Ne. revert rec. induction Ok as [|[q f] l O Os IH]; intros rec; [contradiction|]. destruct l as [|p l].
  - cbn [enc_line map]. rewrite read_field by auto. reflexivity.
  - cbn [enc_line]. rewrite <- app_assoc. cbn [app]. rewrite read_field by auto. change (ceqb comma comma) with true. cbv iota.
    change (enc_line (p :: l)) with (enc_line (p :: l)). rewrite IH by discriminate. cbn [rev map snd]. rewrite <- app_assoc. reflexivity.
Qed.
Lemma read_line l s : Forall enc_ok l -> enc_line l <> [] ->
  csv_read (enc_line l ++ LF :: s) RecordStart [] [] = map snd l :: csv_read s RecordStart [] [].
Proof.
  intros Ok Ne. destruct l as [|[q f] l]; [contradiction|]. inversion Ok as [|? ? O Os]; subst. destruct l as [|p l].
  - cbn [enc_line map] in *. rewrite read_field by auto 6. reflexivity.
  - cbn [enc_line]. rewrite <- app_assoc. cbn [app]. rewrite read_field by auto 6. change (ceqb comma comma) with true. cbv iota.
    rewrite (read_fields (p :: l)) by (auto; discriminate). reflexivity.
Qed.

(** ** Whole files *)
(** Records that leave a trace in the file. *)
Definition visible (r : list bytes) : bool := match r with [] | [[]] => false | _ => true end.
Lemma line_visible sp r : visible r = true -> enc_line (map (fun f => (needs_quotes sp f, nl f)) r) <> [].
Proof.
  destruct r as [|f r]; [discriminate|]. intros V. destruct r as [|g r].
  - cbn [map enc_line]. destruct f as [|c f]; [discriminate|]. destruct (needs_quotes sp (c :: f)); cbn [enc]; [discriminate|].
    rewrite nl_cons. destruct f as [|y f]; [discriminate|]. destruct (_ && _); discriminate.
  - cbn [map enc_line]. intros E. apply app_eq_nil in E as [_ E]. discriminate.
Qed.
Lemma line_invisible sp r : visible r = false -> enc_line (map (fun f => (needs_quotes sp f, nl f)) r) = [].
Proof.
  destruct r as [|f r]; [reflexivity|]. destruct f as [|c f]; [|discriminate]. destruct r as [|g r]; [reflexivity|discriminate].
Qed.
Lemma read_lines sp rs : csv_read (nl (csv_write sp rs)) RecordStart [] [] = map (map nl) (filter visible rs).
Proof.
  unfold csv_write. induction rs as [|r rs IH]; [reflexivity|]. cbn [flat_map]. rewrite nl_line. cbn [filter]. destruct (visible r) eqn:V.
  - rewrite read_line; [|apply enc_lines_ok|apply line_visible; exact V]. rewrite IH, map_map. reflexivity.
  - rewrite (line_invisible sp r V). cbn [app csv_read]. exact IH.
Qed.
Lemma nl_ends (s : bytes) : s = [] \/ (exists a : bytes, s = a ++ [LF]) -> nl s = [] \/ (exists a, nl s = a ++ [LF]).
Proof.
  intros [->|(a & ->)]; [auto|right]. induction a as [|x|x y a IH1 IH2] using bytes_ind2.
  - exists []. reflexivity.
  - cbn [app]. rewrite nl_cons. destruct (_ && _); [exists []; reflexivity|exists [x]; reflexivity].
  - cbn [app] in *. rewrite nl_cons. destruct IH1 as (a1 & IH1), IH2 as (a2 & IH2). destruct (_ && _); [exists (LF :: a1)|exists (x :: a2)].
    + rewrite IH1. reflexivity.
    + rewrite IH2. reflexivity.
Qed.
Lemma csv_write_ends sp rs : csv_write sp rs = [] \/ (exists a, csv_write sp rs = a ++ [LF]).
Proof.
  destruct rs as [|r rs] using rev_ind; [left; reflexivity|right]. unfold csv_write. rewrite flat_map_app. cbn [flat_map]. rewrite app_nil_r.
  unfold csv_line. rewrite app_assoc. eexists. reflexivity.
Qed.
Theorem parse_write sp rs : csv_parse (csv_write sp rs) = map (map nl) (filter visible rs).
Proof.
  unfold csv_parse. rewrite <- (read_lines sp rs). f_equal. unfold csv_lines.
  destruct (nl_ends _ (csv_write_ends sp rs)) as [->|(a & ->)]; [reflexivity|]. rewrite rev_app_distr. reflexivity.
Qed.
