(** Facts about the migrate state machine: one batch. *)
From Verif Require Import GoStr GoStrFacts ModelSq SpecSql SqFacts ModelHistory HistoryFacts.
From Verif Require Import ModelMigrate SpecDb.
From Coq Require Import ZifyBool ZifyNat.

(** ** Programs *)
Lemma bind_inv {A C} (m : prog A) (f : A -> prog C) rs t c :
  bind m f rs = (t, c) ->
  exists t1 a t2, m rs = (t1, a) /\ f a (fun n => rs (List.length t1 + n)) = (t2, c) /\ t = t1 ++ t2.
Proof.
  unfold bind. destruct (m rs) as [t1 a] eqn:E1. destruct (f a _) as [t2 c'] eqn:E2.
  intros [= <- <-]. exists t1, a, t2. auto.
Qed.

Lemma call_inv o rs t r : call o rs = (t, r) -> t = [(o, r)] /\ r = rs 0.
Proof. unfold call. intros H. inversion H. auto. Qed.

Lemma ret_inv {A} (a : A) rs t b : ret a rs = (t, b) -> t = [] /\ b = a.
Proof. unfold ret. intros H. inversion H. auto. Qed.

Lemma call_bind_inv {C} o (f : reply -> prog C) rs t c :
  bind (call o) f rs = (t, c) ->
  exists r t2, f r (fun n => rs (1 + n)) = (t2, c) /\ t = (o, r) :: t2 /\ r = rs 0.
Proof.
  intros H. apply bind_inv in H as (t1 & r & t2 & H1 & H2 & ->).
  apply call_inv in H1 as [-> ->]. exists (rs 0), t2. auto.
Qed.

Lemma prefix_nil {A} (t : list A) : prefix [] t.
Proof. exists t. reflexivity. Qed.
Lemma prefix_refl {A} (t : list A) : prefix t t.
Proof. exists []. rewrite app_nil_r. reflexivity. Qed.
Lemma prefix_of_nil {A} (p : list A) : prefix p [] -> p = [].
Proof. intros [q H]. symmetry in H. apply app_eq_nil in H. tauto. Qed.
Lemma prefix_cons {A} (p : list A) e t :
  prefix p (e :: t) -> p = [] \/ exists p', p = e :: p' /\ prefix p' t.
Proof.
  intros [q H]. destruct p as [|x p]; [left; reflexivity|].
  injection H as <- H. right. exists p. split; [reflexivity|]. exists q. exact H.
Qed.
Lemma prefix_app {A} (p a b : list A) :
  prefix p (a ++ b) -> prefix p a \/ exists p', p = a ++ p' /\ prefix p' b.
Proof.
  revert p; induction a as [|x a IH]; intros p H.
  - right. exists p. split; [reflexivity|exact H].
  - cbn [app] in H. apply prefix_cons in H as [->|(p' & -> & H)]; [left; apply prefix_nil|].
    apply IH in H as [[q ->]|(p'' & -> & H)].
    + left. exists q. reflexivity.
    + right. exists p''. split; [reflexivity|exact H].
Qed.
Lemma prefix_app_l {A} (p a b : list A) : prefix p a -> prefix p (a ++ b).
Proof. intros [q ->]. exists (q ++ b). rewrite <- app_assoc. reflexivity. Qed.

Lemma interp_app s a b : interp s (a ++ b) = interp (interp s a) b.
Proof. apply fold_left_app. Qed.

(** ** One batch *)
Definition contents_of (c : config) (f : bytes) : bytes :=
  match c_dir c f with Some x => x | None => [] end.
Definition applied (c : config) (m : migration) : effect := Applied (m_name m) (contents_of c (m_name m)).

(** The store after a batch has been applied completely. *)
Definition batch_store (c : config) (w : store) (q : list migration) : store :=
  {| data := data w ++ map (applied c) q;
     hist := if c_skip_history c then hist w else upsert_all (map success_row q) (hist w) |}.

Lemma batch_store_nil c w : batch_store c w [] = w.
Proof. unfold batch_store. destruct w. cbn. rewrite app_nil_r. destruct (c_skip_history c); reflexivity. Qed.

Definition key (m : migration) : bytes * bytes := (m_name m, m_checksum m).

Lemma key_names q q' : map key q = map key q' -> map m_name q = map m_name q'.
Proof.
  intros H. apply (f_equal (map fst)) in H. rewrite !map_map in H. exact H.
Qed.
Lemma key_applied c q q' : map key q = map key q' -> map (applied c) q = map (applied c) q'.
Proof.
  intros H. apply key_names in H.
  assert (E : forall l, map (applied c) l = map (fun f => Applied f (contents_of c f)) (map m_name l))
    by (intros l; rewrite map_map; reflexivity).
  rewrite !E, H. reflexivity.
Qed.
Lemma key_success q q' : map key q = map key q' -> map success_row q = map success_row q'.
Proof.
  intros H.
  assert (E : forall l, map success_row l = map (fun k : bytes * bytes =>
    {| r_name := fst k; r_checksum := Some (snd k); r_started := true; r_success := true |}) (map key l))
    by (intros l; rewrite map_map; reflexivity).
  rewrite !E, H. reflexivity.
Qed.
Lemma key_batch c w q q' : map key q = map key q' -> batch_store c w q = batch_store c w q'.
Proof.
  intros H. unfold batch_store. rewrite (key_applied c q q' H), (key_success q q' H). reflexivity.
Qed.
Lemma key_is_tx d q q' : map key q = map key q' -> is_tx d q = is_tx d q'.
Proof.
  intros H. apply key_names in H. destruct q as [|a q], q' as [|b q']; try discriminate; [reflexivity|].
  injection H as H1 H2. unfold is_tx. rewrite H1. destruct q, q'; try discriminate; reflexivity.
Qed.
