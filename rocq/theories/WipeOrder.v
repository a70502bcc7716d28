(** The order of the statements of wipe, their objects, and what the command does with them. *)
From Coq Require Import Sorted.
From Verif Require Import GoStr GoStrFacts ModelSq SpecSql SqFacts ModelDdl ModelHistory ModelMigrate SpecInsert ModelWipe SpecWipe WipeFacts.

(** ** The command *)
Lemma dry_run {W} (exec : bytes -> W -> bool * W) b c pr d q w o t w' : wipe exec b c pr d true q w = (o, t, w') ->
  w' = w /\ (pr = true -> o = Done ->
    forall (exec' : bytes -> W -> bool * W) b' c' pr' v, snd (wipe exec' b' c' pr' d false q v) = v \/ (t <> [] /\ snd (wipe exec' b' c' pr' d false q v) = snd (exec' t v))).
Proof.
  unfold wipe. destruct (statements d q) as [l|]; intros H; [|injection H as <- <- <-; split; [reflexivity|discriminate]].
  injection H as <- <- <-. split; [reflexivity|]. intros _ _ exec' b' c' pr' v. destruct (script l) as [|x s]; [left; reflexivity|].
  destruct d; try (destruct b'; [|left; reflexivity]); destruct (exec' (x :: s) v) as [ok v'] eqn:E; cbn [snd];
    try (destruct (ok && c'); cbn [snd]; [right; split; [discriminate|reflexivity]|left; reflexivity]); right; split; try discriminate; reflexivity.
Qed.
Lemma atomic {W} (exec : bytes -> W -> bool * W) b c pr d dry q w o t w' : d <> MySQL -> wipe exec b c pr d dry q w = (o, t, w') -> o <> Done -> w' = w.
Proof.
  intros Nm. unfold wipe. destruct (statements d q) as [l|]; [|intros [= <- <- <-]; reflexivity]. destruct dry; [intros [= <- <- <-]; reflexivity|].
  destruct (script l) as [|x s]; [intros [= <- <- <-]; reflexivity|]. destruct d; try contradiction; (destruct b; [|intros [= <- <- <-]; reflexivity]);
    destruct (exec (x :: s) w) as [ok v]; destruct (ok && c); intros [= <- <- <-]; try reflexivity; contradiction.
Qed.

Lemma about_ast d cur o : ((forall n, o <> OExt n) -> schema_of o = [] -> cur = []) -> about cur (ast d cur o) o.
Proof.
  intros Hs. destruct o as [s n m|s t n|s n p|s n a kd|s n|s n|n]; cbn [ast about schema_of] in *;
    rewrite ?(path_name_path cur s) by (apply Hs; discriminate); auto. split; [reflexivity|]. destruct kd; reflexivity.
Qed.
Section Order.
Context (d : dialect) (k : deps) (cur : bytes) (l : list obj) (W : wipeable d k cur l).
Lemma ast_about o : In o l -> about cur (ast d cur o) o.
Proof. intros Io. apply about_ast. apply (wp_schemas _ _ _ _ W _ Io). Qed.
Lemma about_same x o o' : about cur x o -> about cur x o' -> o = o' \/ same_name d o o' = true.
Proof.
  destruct x, o; cbn [about]; intros H1; try contradiction; destruct o'; cbn [about]; intros H2; try contradiction.
  - destruct H1 as [H1 E1], H2 as [H2 E2]. rewrite H1 in H2. injection H2 as <- <-. subst. auto.
  - destruct H1 as [H1 E1], H2 as [H2 E2]. rewrite H1 in H2. injection H2 as <- <-. subst. auto.
  - rewrite H1 in H2. injection H2 as <- <-. right. cbn [same_name]. rewrite !beqb_refl. reflexivity.
  - destruct H1 as [H1 E1], H2 as [H2 E2]. rewrite H1 in H2. injection H2 as <- <-. right. cbn [same_name]. rewrite !beqb_refl, <- E1, <- E2. destruct d; try reflexivity. destruct procedure; reflexivity.
  - rewrite H1 in H2. injection H2 as <- <-. auto.
  - rewrite H1 in H2. injection H2 as <- <-. auto.
  - subst. auto.
Qed.
Lemma ast_inj o o' : In o l -> In o' l -> ast d cur o = ast d cur o' -> o = o'.
Proof.
  intros I1 I2 E. pose proof (ast_about o I1) as A1. pose proof (ast_about o' I2) as A2. rewrite <- E in A2.
  destruct (about_same _ _ _ A1 A2) as [X|X]; [exact X|]. apply (wp_unique _ _ _ _ W); assumption.
Qed.
Lemma rank_const n os : (forall o, In o os -> rank (ast d cur o) = n) -> Forall (fun x => rank x = n) (map (ast d cur) os).
Proof. intros H. apply Forall_forall. intros x I. apply in_map_iff in I as (o & <- & I). auto. Qed.
Lemma sorted_app (a b : list dstmt) n : Forall (fun x => rank x = n) a -> StronglySorted (fun x y => rank x <= rank y) b -> Forall (fun x => n <= rank x) b ->
  StronglySorted (fun x y => rank x <= rank y) (a ++ b) /\ Forall (fun x => n <= rank x) (a ++ b).
Proof.
  induction a as [|x a IH]; intros Ha Sb Hb; [split; assumption|]. inversion Ha as [|? ? Hx Ha']; subst. destruct (IH Ha' Sb Hb) as [S1 F1]. cbn [app]. split.
  - constructor; [exact S1|]. exact F1.
  - constructor; [lia|exact F1].
Qed.
Lemma weaken n m (b : list dstmt) : n <= m -> Forall (fun x => m <= rank x) b -> Forall (fun x => n <= rank x) b.
Proof. intros H. apply Forall_impl. intros; lia. Qed.
Lemma map_items : map (item_ast d cur) (all_items d (created k) l) =
  map (ast d cur) (filter (sel_view d l) l) ++ map (ast d cur) (unless_sqlite d (filter (sel_fk d) l)) ++ map (item_ast d cur) (pragma d l)
  ++ map (ast d cur) (filter (sel_table d) l) ++ map (ast d cur) (unless_sqlite d (filter (sel_routine d l (created k)) l))
  ++ map (ast d cur) (if_pg d (filter (sel_enum d) l)) ++ map (ast d cur) (if_pg d (filter (sel_domain d) l)) ++ map (ast d cur) (if_pg d (filter sel_ext l)).
Proof.
  unfold all_items, first_objs, later_objs. rewrite !map_app, !map_map. change (fun x => item_ast d cur (Some x)) with (ast d cur). rewrite <- !app_assoc. reflexivity.
Qed.
Lemma items_sorted : StronglySorted (fun x y => rank x <= rank y) (map (item_ast d cur) (all_items d (created k) l)).
Proof.
  rewrite map_items.
  assert (U : forall sel n, (forall o, sel o = true -> rank (ast d cur o) = n) ->
    Forall (fun x => rank x = n) (map (ast d cur) (filter sel l)) /\ Forall (fun x => rank x = n) (map (ast d cur) (unless_sqlite d (filter sel l)))
    /\ Forall (fun x => rank x = n) (map (ast d cur) (if_pg d (filter sel l)))).
  { intros sel n H. assert (F : Forall (fun x => rank x = n) (map (ast d cur) (filter sel l))) by (apply rank_const; intros o I; apply filter_In in I as [_ I]; auto).
    split; [exact F|]. split; [destruct d; try exact F; constructor|destruct d; try exact F; constructor]. }
  assert (P : Forall (fun x => rank x = 2) (map (item_ast d cur) (pragma d l))).
  { unfold pragma. destruct d; try constructor. destruct (filter (sel_table SQLite) l); repeat constructor. }
  destruct (U (sel_view d l) 0) as (V & _ & _); [intros [| | | | | |]; try discriminate; reflexivity|].
  destruct (U (sel_fk d) 1) as (_ & F & _); [intros [| | | | | |]; try discriminate; reflexivity|].
  destruct (U (sel_table d) 3) as (T & _ & _); [intros [| | | | | |]; try discriminate; reflexivity|].
  destruct (U (sel_routine d l (created k)) 4) as (_ & R & _); [intros [| | | | | |]; try discriminate; reflexivity|].
  destruct (U (sel_enum d) 5) as (_ & _ & E); [intros [| | | | | |]; try discriminate; reflexivity|].
  destruct (U (sel_domain d) 6) as (_ & _ & D); [intros [| | | | | |]; try discriminate; reflexivity|].
  destruct (U sel_ext 7) as (_ & _ & X); [intros [| | | | | |]; try discriminate; reflexivity|].
  rewrite <- (app_nil_r (map (ast d cur) (if_pg d (filter sel_ext l)))).
  destruct (sorted_app _ [] 7 X (SSorted_nil _) (Forall_nil _)) as [s7 f7].
  destruct (sorted_app _ _ 6 D s7 (weaken 6 7 _ ltac:(lia) f7)) as [s6 f6].
  destruct (sorted_app _ _ 5 E s6 (weaken 5 6 _ ltac:(lia) f6)) as [s5 f5].
  destruct (sorted_app _ _ 4 R s5 (weaken 4 5 _ ltac:(lia) f5)) as [s4 f4].
  destruct (sorted_app _ _ 3 T s4 (weaken 3 4 _ ltac:(lia) f4)) as [s3 f3].
  destruct (sorted_app _ _ 2 P s3 (weaken 2 3 _ ltac:(lia) f3)) as [s2 f2].
  destruct (sorted_app _ _ 1 F s2 (weaken 1 2 _ ltac:(lia) f2)) as [s1 f1].
  destruct (sorted_app _ _ 0 V s1 (weaken 0 1 _ ltac:(lia) f1)) as [s0 f0]. exact s0.
Qed.
Lemma in_items x : In x (map (item_ast d cur) (all_items d (created k) l)) -> x = XDefer \/ exists o, x = ast d cur o /\ In o (droppables d k l).
Proof.
  intros I. apply in_map_iff in I as (i & <- & I). destruct i as [o|]; [right|left; reflexivity]. exists o. split; [reflexivity|].
  unfold all_items in I. rewrite !in_app_iff in I. unfold droppables. rewrite in_app_iff. destruct I as [I|[I|I]].
  - apply in_map_iff in I as (y & [= ->] & I). auto.
  - exfalso. revert I. clear. unfold pragma. destruct d; try (intros []). destruct (filter (sel_table SQLite) l); intros I; [destruct I|]. destruct I as [I|[]]; discriminate I.
  - apply in_map_iff in I as (y & [= ->] & I). auto.
Qed.
(** A list sorted by rank has no duplicates if no rank has. *)
Lemma nodup_sorted_app (a b : list dstmt) n : NoDup a -> NoDup b -> Forall (fun x => rank x = n) a -> Forall (fun x => S n <= rank x) b -> NoDup (a ++ b).
Proof.
  intros Na Nb Ha Hb. induction a as [|x a IH]; [exact Nb|]. inversion Na as [|? ? N1 N2]; subst. inversion Ha as [|? ? Hx Ha']; subst. cbn [app]. constructor; [|apply IH; assumption].
  intros I. apply in_app_iff in I as [I|I]; [contradiction|]. rewrite Forall_forall in Hb. specialize (Hb _ I). lia.
Qed.
Lemma nodup_asts sel : NoDup (map (ast d cur) (filter sel l)).
Proof.
  assert (N : NoDup (filter sel l)) by (apply NoDup_filter; exact (wp_nodup _ _ _ _ W)).
  assert (I : incl (filter sel l) l) by (intros o Io; apply filter_In in Io; tauto).
  induction (filter sel l) as [|o os IH]; [constructor|]. inversion N as [|? ? N1 N2]; subst. cbn [map]. constructor; [|apply IH; [exact N2|intros y Iy; apply I; right; exact Iy]].
  intros J. apply in_map_iff in J as (o' & E & Jo). apply N1. rewrite (ast_inj o o'); [exact Jo|apply I; left; reflexivity|apply I; right; exact Jo|symmetry; exact E].
Qed.
Lemma forall_le (a : list dstmt) n m : n <= m -> Forall (fun x => rank x = m) a -> Forall (fun x => n <= rank x) a.
Proof. intros H. apply Forall_impl. intros; lia. Qed.
Lemma items_nodup : NoDup (map (item_ast d cur) (all_items d (created k) l)).
Proof.
  rewrite map_items.
  assert (U : forall sel n, (forall o, sel o = true -> rank (ast d cur o) = n) ->
    (Forall (fun x => rank x = n) (map (ast d cur) (filter sel l)) /\ NoDup (map (ast d cur) (filter sel l)))
    /\ (Forall (fun x => rank x = n) (map (ast d cur) (unless_sqlite d (filter sel l))) /\ NoDup (map (ast d cur) (unless_sqlite d (filter sel l))))
    /\ (Forall (fun x => rank x = n) (map (ast d cur) (if_pg d (filter sel l))) /\ NoDup (map (ast d cur) (if_pg d (filter sel l))))).
  { intros sel n H. assert (F : Forall (fun x => rank x = n) (map (ast d cur) (filter sel l))) by (apply rank_const; intros o I; apply filter_In in I as [_ I]; auto).
    pose proof (nodup_asts sel) as Nd. split; [auto|]. split; destruct d; try (split; [exact F|exact Nd]); split; constructor. }
  assert (P : Forall (fun x => rank x = 2) (map (item_ast d cur) (pragma d l)) /\ NoDup (map (item_ast d cur) (pragma d l))).
  { unfold pragma. destruct d; try (split; constructor). destruct (filter (sel_table SQLite) l); split; repeat constructor. intros []. }
  destruct P as [P P'].
  destruct (U (sel_view d l) 0) as ((V & V') & _ & _); [intros [| | | | | |]; try discriminate; reflexivity|].
  destruct (U (sel_fk d) 1) as (_ & (F & F') & _); [intros [| | | | | |]; try discriminate; reflexivity|].
  destruct (U (sel_table d) 3) as ((T & T') & _ & _); [intros [| | | | | |]; try discriminate; reflexivity|].
  destruct (U (sel_routine d l (created k)) 4) as (_ & (R & R') & _); [intros [| | | | | |]; try discriminate; reflexivity|].
  destruct (U (sel_enum d) 5) as (_ & _ & (E & E')); [intros [| | | | | |]; try discriminate; reflexivity|].
  destruct (U (sel_domain d) 6) as (_ & _ & (D & D')); [intros [| | | | | |]; try discriminate; reflexivity|].
  destruct (U sel_ext 7) as (_ & _ & (X & X')); [intros [| | | | | |]; try discriminate; reflexivity|].
  apply (nodup_sorted_app _ _ 0); [exact V'| |exact V|].
  2:{ repeat (apply Forall_app; split); [eapply forall_le; [|exact F]|eapply forall_le; [|exact P]|eapply forall_le; [|exact T]|eapply forall_le; [|exact R]|eapply forall_le; [|exact E]|eapply forall_le; [|exact D]|eapply forall_le; [|exact X]]; lia. }
  apply (nodup_sorted_app _ _ 1); [exact F'| |exact F|].
  2:{ repeat (apply Forall_app; split); [eapply forall_le; [|exact P]|eapply forall_le; [|exact T]|eapply forall_le; [|exact R]|eapply forall_le; [|exact E]|eapply forall_le; [|exact D]|eapply forall_le; [|exact X]]; lia. }
  apply (nodup_sorted_app _ _ 2); [exact P'| |exact P|].
  2:{ repeat (apply Forall_app; split); [eapply forall_le; [|exact T]|eapply forall_le; [|exact R]|eapply forall_le; [|exact E]|eapply forall_le; [|exact D]|eapply forall_le; [|exact X]]; lia. }
  apply (nodup_sorted_app _ _ 3); [exact T'| |exact T|].
  2:{ repeat (apply Forall_app; split); [eapply forall_le; [|exact R]|eapply forall_le; [|exact E]|eapply forall_le; [|exact D]|eapply forall_le; [|exact X]]; lia. }
  apply (nodup_sorted_app _ _ 4); [exact R'| |exact R|].
  2:{ repeat (apply Forall_app; split); [eapply forall_le; [|exact E]|eapply forall_le; [|exact D]|eapply forall_le; [|exact X]]; lia. }
  apply (nodup_sorted_app _ _ 5); [exact E'| |exact E|].
  2:{ repeat (apply Forall_app; split); [eapply forall_le; [|exact D]|eapply forall_le; [|exact X]]; lia. }
  apply (nodup_sorted_app _ _ 6); [exact D'|exact X'|exact D|eapply forall_le; [|exact X]; lia].
Qed.
(** What the script consists of. *)
Lemma script_order pr : d <> Other -> exists t xs, wipe (server d k cur) true true pr d true (introspect d cur (created k) l) l = (if pr then Done else Failed, t, l)
  /\ read_script d t = Some xs /\ NoDup xs /\ StronglySorted (fun x y => rank x <= rank y) xs
  /\ (forall o, In o l -> held k o = None -> o <> OExt (B"plpgsql") -> exists x, In x xs /\ about cur x o).
Proof.
  intros Nd. exists (script (map (item_text d cur) (all_items d (created k) l))), (map (item_ast d cur) (all_items d (created k) l)). split; [|split; [|split; [exact items_nodup|split; [exact items_sorted|]]]].
  - unfold wipe. rewrite statements_items; [reflexivity|exact Nd|exact (views_fine d k cur l W)|exact (routines_fine d k cur l W)].
  - apply script_read. intros o n Io Jn. apply (wp_names _ _ _ _ W o n); [|exact Jn].
    destruct (in_items (ast d cur o)) as [X|(o' & Eo & X)].
    + apply in_map_iff. exists (Some o). auto.
    + destruct o; discriminate X.
    + clear Eo. unfold all_items in Io. rewrite !in_app_iff in Io.
      assert (Id : In o (droppables d k l)).
      { unfold droppables. rewrite in_app_iff. destruct Io as [Io|[Io|Io]].
        - apply in_map_iff in Io as (y & [= ->] & Io). auto.
        - exfalso. revert Io. clear. unfold pragma. destruct d; try (intros []). destruct (filter (sel_table SQLite) l); intros Io; [destruct Io|]. destruct Io as [Io|[]]; discriminate Io.
        - apply in_map_iff in Io as (y & [= ->] & Io). auto. }
      destruct (selected_droppable d k cur l W o Id) as (Y & _). exact Y.
  - intros o Io Hn Np. exists (ast d cur o). split; [|apply ast_about; exact Io].
    assert (Id : In o (droppables d k l)) by (apply (in_droppables d k cur l W); [exact Io|rewrite Hn; discriminate|exact Np]).
    apply in_map_iff. exists (Some o). split; [reflexivity|]. unfold all_items. rewrite !in_app_iff. unfold droppables in Id. apply in_app_iff in Id as [Id|Id]; [left|right; right]; apply in_map; exact Id.
Qed.
End Order.
