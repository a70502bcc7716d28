(** The paths that are found. *)
From Coq Require Import Permutation.
From Verif Require Import GoStr GoStrFacts ModelSubset SpecSubset SubsetFacts SubsetRows SubsetIntact SubsetComplete.

Lemma linked_snoc a l f c : linked a l -> forall b, b = last (map snd l) a -> link f b c -> linked a (l ++ [(f, c)]).
Proof.
  revert a. induction l as [|[g d] l IH]; intros a H b E L; cbn [app linked map last] in *.
  - subst b. split; [exact L|exact Logic.I].
  - destruct H as [H1 H2]. split; [exact H1|]. apply (IH d H2 b); [|exact L]. rewrite E. cbn [snd]. clear. destruct (map snd l) as [|x y]; [reflexivity|]. revert x. induction y as [|z y IH]; intros x; [reflexivity|]. exact (IH z).
Qed.
Lemma combine_snoc {A C} (l : list A) (l' : list C) x y : List.length l = List.length l' -> combine (l ++ [x]) (l' ++ [y]) = combine l l' ++ [(x, y)].
Proof. revert l'. induction l as [|a l IH]; intros [|b l'] E; try discriminate E; [reflexivity|]. cbn [app combine]. rewrite IH by (injection E as E; exact E). reflexivity. Qed.
Lemma map_snd_combine {A C} (l : list A) (l' : list C) : List.length l = List.length l' -> map snd (combine l l') = l'.
Proof. revert l'. induction l as [|a l IH]; intros [|b l'] E; try discriminate E; [reflexivity|]. cbn [combine map snd]. rewrite IH by (injection E as E; exact E). reflexivity. Qed.
Lemma vpath_path cat n t0 pk ts fs i : catalog_ok cat -> vpath cat n t0 pk ts fs i -> path_to cat n (t_id t0) i (Path ts fs).
Proof.
  intros CO. unfold path_to. cbn [j_tables j_fkeys]. induction 1 as [|ts fs a f b H IH L I N].
  - cbn. split; [reflexivity|]. split; [split; [left; auto|exact Logic.I]|]. split; [exists []; reflexivity|]. split; [exists []; reflexivity|]. split; [repeat constructor; intros []|]. split; [constructor|intros x []].
  - destruct IH as (E1 & E2 & (ts1 & E3) & (ts2 & E4) & E5 & E6 & E7). assert (Fs : fs <> []) by (intros ->; rewrite E3 in E1; discriminate E1).
    split; [rewrite !app_length; cbn; lia|]. split; [|split; [|split; [|split; [|split]]]].
    + rewrite combine_snoc by congruence. apply linked_snoc with (b := a); [exact E2| |exact L]. rewrite map_snd_combine by congruence. rewrite E4. symmetry. apply last_last.
    + exists (ts1 ++ [b]). rewrite E3. reflexivity.
    + exists ts. reflexivity.
    + apply (Permutation_NoDup (l := b :: ts)); [apply Permutation_cons_append|constructor; assumption].
    + destruct fs as [|f0 fs]; [contradiction|]. cbn [app tl] in *. rewrite map_app. cbn [map]. apply (Permutation_NoDup (l := f_num f :: map f_num fs)); [apply Permutation_cons_append|]. constructor; [|exact E6].
      intros X. apply in_map_iff in X as (g & Eg & Ig). assert (g = f). { apply (nodup_map_inj f_num (all_fks cat)); [exact (co_nums _ CO)|apply E7; exact Ig|exact I|exact Eg]. } subst g.
      assert (Gi : forall g ts0 fs0 a0, vpath cat n t0 pk ts0 fs0 a0 -> In g (tl fs0) -> In (f_from g) ts0 /\ In (f_to g) ts0).
      { clear - CO. intros g ts0 fs0 a0 P. induction P as [|ts fs a f b H IH L I N]; intros Ig; [destruct Ig|].
        destruct fs as [|f0 fs]; [inversion H|]; [exfalso; match goal with E : _ = [] |- _ => symmetry in E; apply app_cons_not_nil in E; exact E end|]. cbn [app tl] in *. apply in_app_iff in Ig as [Ig|[<-|[]]].
        - destruct (IH Ig). split; apply in_or_app; left; assumption.
        - pose proof (vpath_last _ _ _ _ _ _ _ H) as La. destruct L as [[<- <-]|[<- <-]]; split; apply in_or_app; solve [left; exact La|right; left; reflexivity]. }
      destruct (Gi f _ _ _ H) as [A C]; [exact Ig|]. destruct L as [[_ <-]|[_ <-]]; contradiction.
    + destruct fs as [|f0 fs]; [contradiction|]. cbn [app tl] in *. intros x Ix. apply in_app_iff in Ix as [Ix|[<-|[]]]; [apply E7; exact Ix|exact I].
Qed.
Lemma joins_found cat ext n t pk : catalog_ok cat -> closed cat -> In t (c_tables cat) -> exists m, subset_joins cat ext n t pk = Found m
  /\ NoDup (map fst m) /\ In (t_id t) (map fst m)
  /\ forall i js, In (i, js) m -> js <> [] /\ forall j, In j js -> path_to cat n (t_id t) i j
       /\ exists s, to_sql j = Some s /\ sj_first s :: map fst (sj_rest s) = rev (j_tables j) ++ [result_name n] /\ well_formed s.
Proof.
  intros CO CL It. destruct (subset_found cat n t pk CO It ext CL) as (m & E). exists m. split; [exact E|]. destruct (subset_good cat n t pk CO It ext m E) as [G Kb].
  split; [exact (g_nodup _ _ _ _ _ G)|]. split; [exact Kb|]. intros i js Ij. assert (Eg : get_joins i m = js) by (apply get_in; [exact (g_nodup _ _ _ _ _ G)|exact Ij]).
  assert (Ki : In i (keys m)) by (apply (in_map fst) in Ij; exact Ij). split; [rewrite <- Eg; exact (g_nonempty _ _ _ _ _ G i Ki)|]. intros j Hj. rewrite <- Eg in Hj.
  pose proof (g_paths _ _ _ _ _ G i j Hj) as P. split; [destruct j; exact (vpath_path _ _ _ _ _ _ _ CO P)|].
  destruct (to_sql_ok cat n t pk CO j i P) as (s & E1 & _ & E3 & E4 & _); [|eauto]. intros k Ik. destruct (vpath_in_catalog _ _ _ _ CO It _ _ _ CL P k Ik) as (t' & A & <-). apply (co_results _ CO). exact A.
Qed.
Lemma forward_once cat : forall fuel todo v m v' m', NoDup v -> forward fuel cat todo v m = Found (v', m') -> NoDup v'.
Proof.
  intros fuel todo v m v' m' N E. refine (forward_ind cat (fun v _ _ => NoDup v) _ _ _ _ _ _ _ _ N E); [auto|]. intros f td v0 x t H Es _. constructor; [|exact H]. intros I. apply seen_in in I. congruence.
Qed.
Lemma backward_once cat : forall fuel todo v m v' m', NoDup v -> backward fuel cat todo v m = Found (v', m') -> NoDup v'.
Proof.
  intros fuel todo v m v' m' N E. refine (backward_ind cat (fun v _ _ => NoDup v) _ _ _ _ _ _ _ _ N E); [auto|]. intros f td v0 x H Es. constructor; [|exact H]. intros I. apply seen_in in I. congruence.
Qed.
