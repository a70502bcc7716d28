(** Facts about the texts of JSON: what is written is read back. *)
From Coq Require Import Lia ZifyN ZifyBool.
From Verif Require Import GoStr GoStrFacts ModelArray SpecArray ArrayFacts ModelJson SpecJson.
Ltac Zify.zify_post_hook ::= Z.to_euclidean_division_equations.

(** ** Characters *)
Lemma bv_of : forall n, (n < 256)%N -> bv (ascii_of_N n) = n.
Proof. intros n H. apply N_ascii_embedding, H. Qed.
Lemma within_of : forall lo hi n, (n < 256)%N -> within lo hi (ascii_of_N n) = ((lo <=? n) && (n <=? hi))%N.
Proof. intros lo hi n H. unfold within. rewrite bv_of by exact H. reflexivity. Qed.
Ltac bytes_of := unfold two, three, four, cont; rewrite ?within_of by lia.
Lemma rune_char : forall n s, scalar n -> rune_len (char_bytes n ++ s) = List.length (char_bytes n).
Proof.
  intros n s H. unfold char_bytes, scalar in *. destruct (n <? 128)%N eqn:A; [|destruct (n <? 2048)%N eqn:C; [|destruct (n <? 65536)%N eqn:D]].
  - cbn [app rune_len List.length]. rewrite bv_of by lia. rewrite A. reflexivity.
  - cbn [app rune_len List.length]. rewrite bv_of by lia. assert ((192 + n / 64 <? 128)%N = false) as -> by lia. bytes_of.
    match goal with |- (if ?b then _ else _) = _ => assert (b = true) as -> by lia end. reflexivity.
  - cbn [app rune_len List.length]. rewrite bv_of by lia. assert ((224 + n / 4096 <? 128)%N = false) as -> by lia. bytes_of.
    match goal with |- (if ?b then _ else _) = _ => assert (b = false) as -> by lia end.
    match goal with |- (if ?b then _ else _) = _ => assert (b = true) as -> by lia end. reflexivity.
  - cbn [app rune_len List.length]. rewrite bv_of by lia. assert ((240 + n / 262144 <? 128)%N = false) as -> by lia. bytes_of.
    match goal with |- (if ?b then _ else _) = _ => assert (b = false) as -> by lia end.
    match goal with |- (if ?b then _ else _) = _ => assert (b = false) as -> by lia end.
    match goal with |- (if ?b then _ else _) = _ => assert (b = true) as -> by lia end. reflexivity.
Qed.
Lemma firstn_len : forall (a b : bytes), firstn (List.length a) (a ++ b) = a.
Proof. intros a b. rewrite firstn_app, Nat.sub_diag, firstn_all, app_nil_r. reflexivity. Qed.
Lemma skipn_len : forall (a b : bytes), skipn (List.length a) (a ++ b) = b.
Proof. intros a b. rewrite skipn_app, Nat.sub_diag, skipn_all. reflexivity. Qed.
Lemma char_some : forall n, exists a r, char_bytes n = a :: r.
Proof. intros n. unfold char_bytes. repeat destruct (_ <? _)%N; eauto. Qed.

Definition prepend (o : bytes) (x : option (bytes * bytes)) : option (bytes * bytes) := match x with Some (t, r) => Some (o ++ t, r) | None => None end.
Lemma read_ascii : forall a f s, (bv a <? 128)%N = true -> text_rest (S f) (escape a ++ s) = prepend [a] (text_rest f s).
Proof. intros [[] [] [] [] [] [] [] []] f s H; try discriminate H; reflexivity. Qed.
Lemma read_raw : forall a f r s, (bv a <? 128)%N = false -> rune_len ((a :: r) ++ s) = List.length (a :: r) ->
  text_rest (S f) ((a :: r) ++ s) = prepend (a :: r) (text_rest f s).
Proof.
  intros a f r s H E. change (text_rest (S f) ((a :: r) ++ s)) with
    (let more (o r : bytes) := prepend o (text_rest f r) in
      if ceqb a dquote then Some ([], r ++ s)
      else if ceqb a backslash then match escaped (r ++ s) with Some (o, r) => more o r | None => None end
      else if (bv a <? 32)%N then None
      else match rune_len ((a :: r) ++ s) with 0 => more bad_rune (r ++ s) | k => more (firstn k ((a :: r) ++ s)) (skipn k ((a :: r) ++ s)) end).
  cbv zeta. assert (ceqb a dquote = false) as -> by (destruct (ceqb_spec a dquote) as [->|]; [discriminate H|reflexivity]).
  assert (ceqb a backslash = false) as -> by (destruct (ceqb_spec a backslash) as [->|]; [discriminate H|reflexivity]).
  assert ((bv a <? 32)%N = false) as -> by lia. rewrite E. cbn [List.length]. change (S (List.length r)) with (List.length (a :: r)).
  rewrite firstn_len, skipn_len. reflexivity.
Qed.
Lemma read_char : forall n s' f s, scalar n ->
  text_rest (S f) (char_text (List.length (char_bytes n)) (char_bytes n ++ s') ++ s) = prepend (char_bytes n) (text_rest f s).
Proof.
  intros n s' f s H. pose proof (rune_char n s H) as R. unfold char_bytes, scalar in *.
  destruct (n <? 128)%N eqn:A; [|destruct (n <? 2048)%N eqn:C; [|destruct (n <? 65536)%N eqn:D]]; cbn [List.length app char_text].
  - apply read_ascii. rewrite bv_of by lia. exact A.
  - cbn [firstn]. rewrite read_raw; [reflexivity|rewrite bv_of by lia; lia|exact R].
  - destruct (separator _ _ _) eqn:E.
    + unfold separator in E. rewrite !within_of in E by lia.
      assert (n = 8232 \/ n = 8233)%N as [-> | ->] by lia; reflexivity.
    + rewrite read_raw; [reflexivity|rewrite bv_of by lia; lia|exact R].
  - cbn [firstn]. rewrite read_raw; [reflexivity|rewrite bv_of by lia; lia|exact R].
Qed.
Lemma char_text_some : forall n s, (1 <= List.length (char_text (List.length (char_bytes n)) (char_bytes n ++ s)))%nat.
Proof.
  intros n s. unfold char_bytes. repeat destruct (_ <? _)%N; cbn [List.length app char_text firstn]; try lia.
  - unfold escape. repeat match goal with |- context [if ?b then _ else _] => destruct b end; cbn [List.length]; lia.
  - destruct (separator _ _ _); cbn [List.length app]; lia.
Qed.
Lemma read_chars : forall l s r, Forall scalar l -> s = flat_map char_bytes l -> forall fq f, (List.length s <= fq)%nat ->
  (List.length (quote_body fq s) < f)%nat -> text_rest f (quote_body fq s ++ dquote :: r) = Some (s, r).
Proof.
  intros l s r F. revert s. induction F as [|n l Hn F IH]; intros s -> fq f Q L.
  - destruct f as [|f]; [lia|]. destruct fq; reflexivity.
  - cbn [flat_map] in *. destruct (char_some n) as (a & t & E). destruct fq as [|fq]; [rewrite E in Q; cbn [app List.length] in Q; lia|].
    assert (X : quote_body (S fq) (char_bytes n ++ flat_map char_bytes l)
      = char_text (List.length (char_bytes n)) (char_bytes n ++ flat_map char_bytes l) ++ quote_body fq (flat_map char_bytes l)).
    { change (S fq) with (1 + fq)%nat. transitivity (match char_bytes n ++ flat_map char_bytes l with [] => [] | _ :: _ =>
        let k := rune_len (char_bytes n ++ flat_map char_bytes l) in char_text k (char_bytes n ++ flat_map char_bytes l) ++ quote_body fq (skipn (Nat.max 1 k) (char_bytes n ++ flat_map char_bytes l)) end);
        [reflexivity|]. rewrite rune_char by exact Hn. cbv zeta. rewrite Nat.max_r by (rewrite E; cbn [List.length]; lia). rewrite skipn_len, E. reflexivity. }
    rewrite X in *. clear X. pose proof (char_text_some n (flat_map char_bytes l)) as P. rewrite app_length in L.
    destruct f as [|f]; [lia|]. rewrite <- app_assoc, read_char by exact Hn.
    rewrite (IH _ eq_refl fq f); [reflexivity| |lia]. rewrite app_length, E in Q. cbn [List.length] in Q. lia.
Qed.
Lemma read_quoted : forall s r, utf8 s -> exists b, quote_text s ++ r = dquote :: b /\ read_text b = Some (s, r).
Proof.
  intros s r (l & F & E). exists (quote_body (List.length s) s ++ dquote :: r). split; [unfold quote_text; cbn [app]; rewrite <- app_assoc; reflexivity|].
  unfold read_text. apply (read_chars l); [exact F|exact E|lia|]. rewrite app_length. cbn [List.length]. lia.
Qed.

(** ** Trees *)
Inductive plain : jtree -> Prop :=
| plain_null : plain TNull | plain_true : plain TTrue | plain_false : plain TFalse
| plain_number z : plain (TNumber (Z_dec z))
| plain_text s : utf8 s -> plain (TText s)
| plain_items l : Forall plain l -> plain (TItems l)
| plain_object l : Forall (fun p => utf8 (fst p) /\ plain (snd p)) l -> plain (TObject l).
Lemma plain_ind' : forall (P : jtree -> Prop), P TNull -> P TTrue -> P TFalse -> (forall z, P (TNumber (Z_dec z))) -> (forall s, utf8 s -> P (TText s)) ->
  (forall l, Forall P l -> P (TItems l)) -> (forall l, Forall (fun p => utf8 (fst p) /\ P (snd p)) l -> P (TObject l)) -> forall j, plain j -> P j.
Proof.
  intros P H1 H2 H3 H4 H5 H6 H7. fix IH 2. intros j H. destruct H as [| | |z|s U|l F|l F]; [assumption|assumption|assumption|apply H4|apply H5, U| |].
  - apply H6. induction F as [|x l Hx F IHl]; constructor; [apply IH, Hx|exact IHl].
  - apply H7. induction F as [|x l Hx F IHl]; constructor; [destruct Hx; split; [assumption|apply IH; assumption]|exact IHl].
Qed.
Fixpoint cost (j : jtree) : nat :=
  match j with
  | TItems l => S (list_sum (map (fun x => S (cost x)) l))
  | TObject l => S (list_sum (map (fun p => S (cost (snd p))) l))
  | _ => 1
  end.
Definition follows (r : bytes) : Prop := match r with [] => True | c :: _ => in_word c = false end.
Lemma skip_new_line : forall n s, skip_ws (new_line n ++ s) = skip_ws s.
Proof. intros n s. unfold new_line. cbn [app skip_ws]. change (is_ws LF) with true. cbv iota. induction (2 * n)%nat as [|k IH]; [reflexivity|]. cbn [repeat app skip_ws]. exact IH. Qed.
Lemma head_skip : forall c s, is_ws c = false -> skip_ws (c :: s) = c :: s.
Proof. intros c s H. cbn [skip_ws]. rewrite H. reflexivity. Qed.
Lemma tree_at_skip : forall f s s', skip_ws s = skip_ws s' -> tree_at f s = tree_at f s'.
Proof. intros [|f] s s' E; [reflexivity|]. cbn [tree_at]. rewrite E. reflexivity. Qed.
Lemma word_app : forall w r, Forall (fun c => in_word c = true) w -> follows r -> word (w ++ r) = (w, r).
Proof.
  intros w r F H. induction F as [|c w Hc F IH]; cbn [app word].
  - destruct r as [|c r]; [reflexivity|]. cbn [word]. cbn in H. rewrite H. reflexivity.
  - rewrite Hc, IH. reflexivity.
Qed.
Lemma dec_word : forall z, Forall (fun c => in_word c = true) (Z_dec z).
Proof.
  intros z. apply Forall_forall. intros c I. destruct (dec_char z c I) as [D| ->]; [|reflexivity].
  destruct c as [[] [] [] [] [] [] [] []]; vm_compute in D; try discriminate D; reflexivity.
Qed.
Lemma word_number : forall z, word_value (Z_dec z) = Some (TNumber (Z_dec z)).
Proof.
  intros z. unfold word_value. rewrite json_number_dec.
  assert (K : forall c w, is_digit c = false -> c <> "-"%char -> beqb (Z_dec z) (c :: w) = false).
  { intros c w D N. destruct (beqb (Z_dec z) (c :: w)) eqn:E; [|reflexivity]. apply beqb_eq in E. destruct (dec_char z c) as [H|H]; [rewrite E; left; reflexivity|congruence|contradiction]. }
  change (B"null") with ("n"%char :: B"ull"). change (B"true") with ("t"%char :: B"rue"). change (B"false") with ("f"%char :: B"alse").
  rewrite !K by (reflexivity || discriminate). reflexivity.
Qed.
Lemma read_word : forall w v f r, Forall (fun c => in_word c = true) w -> w <> [] -> follows r -> word_value w = Some v -> tree_at (S f) (w ++ r) = Some (v, r).
Proof.
  intros w v f r F N H V. cbn [tree_at]. destruct w as [|c w]; [contradiction N; reflexivity|]. inversion F as [|? ? Hc Fw]; subst.
  assert (W : is_ws c = false) by (unfold in_word in Hc; destruct (is_ws c); [discriminate Hc|reflexivity]).
  cbn [app]. rewrite head_skip by exact W.
  assert (ceqb c dquote = false) as -> by (destruct (ceqb_spec c dquote) as [->|]; [discriminate Hc|reflexivity]).
  assert (ceqb c "[" = false) as -> by (destruct (ceqb_spec c "[") as [->|]; [discriminate Hc|reflexivity]).
  assert (ceqb c "{" = false) as -> by (destruct (ceqb_spec c "{") as [->|]; [discriminate Hc|reflexivity]).
  change (c :: w ++ r) with ((c :: w) ++ r). rewrite word_app by assumption. rewrite V. reflexivity.
Qed.
(** What is written for a value begins neither with a space nor with a closing bracket. *)
Lemma print_head : forall j n, plain j -> exists c s, print n j = c :: s /\ is_ws c = false /\ ceqb c "]" = false /\ ceqb c "}" = false.
Proof.
  intros j n H. destruct H as [| | |z|s U|l F|l F]; try (do 2 eexists; split; [reflexivity|]; repeat split; reflexivity).
  - destruct (Z_dec_some z) as (c & r & E). exists c, r. cbn [print]. split; [exact E|]. pose proof (dec_word z) as W. rewrite E in W. inversion W as [|? ? Hc]; subst.
    destruct c as [[] [] [] [] [] [] [] []]; vm_compute in Hc; try discriminate Hc; repeat split; reflexivity.
  - destruct l; (do 2 eexists; split; [reflexivity|]; repeat split; reflexivity).
  - destruct l; (do 2 eexists; split; [reflexivity|]; repeat split; reflexivity).
Qed.
Definition reads (j : jtree) : Prop := forall n f r, (cost j <= f)%nat -> follows r -> tree_at f (print n j ++ r) = Some (j, r).
Lemma items_read : forall l n f r, Forall (fun j => plain j /\ reads j) l -> l <> [] -> (list_sum (map (fun x => S (cost x)) l) <= f)%nat ->
  items f (join (B",") (map (fun x => new_line (S n) ++ print (S n) x) l) ++ new_line n ++ B"]" ++ r) = Some (l, r).
Proof.
  induction l as [|x l IH]; intros n f r F N C; [contradiction N; reflexivity|]. inversion F as [|? ? Hx Fl]; subst. destruct Hx as (Px & Rx).
  cbn [map list_sum fold_right] in C. destruct f as [|f]; [lia|]. cbn [items].
  destruct l as [|y l].
  - cbn [map join]. rewrite <- app_assoc. rewrite (tree_at_skip f _ (print (S n) x ++ new_line n ++ B"]" ++ r)) by (apply skip_new_line).
    rewrite Rx by (try lia; reflexivity). rewrite skip_new_line. reflexivity.
  - change (join (B",") (map (fun x => new_line (S n) ++ print (S n) x) (x :: y :: l)))
      with ((new_line (S n) ++ print (S n) x) ++ B"," ++ join (B",") (map (fun x => new_line (S n) ++ print (S n) x) (y :: l))).
    rewrite <- !app_assoc. rewrite (tree_at_skip f _ _ (skip_new_line _ _)). rewrite Rx by (try lia; reflexivity).
    change (skip_ws (B"," ++ ?x)) with (","%char :: x). change (ceqb "," ",") with true. cbv iota.
    rewrite IH; [reflexivity|exact Fl|discriminate|unfold list_sum; lia].
Qed.
Lemma members_read : forall l n f r, Forall (fun p => utf8 (fst p) /\ plain (snd p) /\ reads (snd p)) l -> l <> [] -> (list_sum (map (fun p => S (cost (snd p))) l) <= f)%nat ->
  members f (join (B",") (map (fun p => new_line (S n) ++ quote_text (fst p) ++ B": " ++ print (S n) (snd p)) l) ++ new_line n ++ B"}" ++ r) = Some (l, r).
Proof.
  induction l as [|[k x] l IH]; intros n f r F N C; [contradiction N; reflexivity|]. inversion F as [|? ? Hx Fl]; subst. destruct Hx as (Uk & Px & Rx).
  cbn [fst snd] in *. cbn [map list_sum fold_right snd] in C. destruct f as [|f]; [lia|]. cbn [members].
  assert (S1 : forall s, skip_ws (new_line (S n) ++ quote_text k ++ B": " ++ s) = quote_text k ++ B": " ++ s) by (intros s; rewrite skip_new_line; reflexivity).
  destruct l as [|y l].
  - cbn [map join fst snd]. rewrite <- !app_assoc. rewrite S1.
    destruct (read_quoted k (B": " ++ print (S n) x ++ new_line n ++ B"}" ++ r) Uk) as (b & -> & ->). change (ceqb dquote dquote) with true. cbv iota.
    change (skip_ws (B": " ++ ?x)) with (":"%char :: SPACE :: x). change (ceqb ":" ":") with true. cbv iota.
    rewrite (tree_at_skip f (SPACE :: _) (print (S n) x ++ new_line n ++ B"}" ++ r)) by reflexivity.
    rewrite Rx by (try lia; reflexivity). rewrite skip_new_line. reflexivity.
  - change (join (B",") (map (fun p => new_line (S n) ++ quote_text (fst p) ++ B": " ++ print (S n) (snd p)) ((k, x) :: y :: l)))
      with ((new_line (S n) ++ quote_text k ++ B": " ++ print (S n) x) ++ B"," ++ join (B",") (map (fun p => new_line (S n) ++ quote_text (fst p) ++ B": " ++ print (S n) (snd p)) (y :: l))).
    rewrite <- !app_assoc. rewrite S1.
    match goal with |- context [quote_text k ++ ?q] => destruct (read_quoted k q Uk) as (b & -> & ->) end. change (ceqb dquote dquote) with true. cbv iota.
    change (skip_ws (B": " ++ ?x)) with (":"%char :: SPACE :: x). change (ceqb ":" ":") with true. cbv iota.
    match goal with |- context [tree_at f (SPACE :: ?q)] => rewrite (tree_at_skip f (SPACE :: q) q) by reflexivity end.
    rewrite Rx by (try lia; reflexivity). change (skip_ws (B"," ++ ?x)) with (","%char :: x). change (ceqb "," ",") with true. cbv iota.
    rewrite IH; [reflexivity|exact Fl|discriminate|unfold list_sum; lia].
Qed.
Lemma read_print : forall j, plain j -> plain j /\ reads j.
Proof.
  intros j H. induction H as [| | |z|s U|l F|l F] using plain_ind'.
  1-3: split; [constructor|]; intros n f r C L; destruct f as [|f]; [cbn in C; lia|]; apply read_word; [repeat constructor|discriminate|exact L|reflexivity].
  - split; [constructor|]. intros n f r C L. destruct f as [|f]; [cbn in C; lia|]. apply read_word; [apply dec_word| |exact L|apply word_number].
    destruct (Z_dec_some z) as (c & w & E). rewrite E. discriminate.
  - split; [constructor; exact U|]. intros n f r C L. destruct f as [|f]; [cbn in C; lia|]. cbn [print tree_at].
    destruct (read_quoted s r U) as (b & -> & E). rewrite head_skip by reflexivity. change (ceqb dquote dquote) with true. cbv iota. rewrite E. reflexivity.
  - split; [constructor; eapply Forall_impl; [|exact F]; intros a (Pa & _); exact Pa|]. intros n f r C L. cbn [cost] in C. destruct f as [|f]; [lia|].
    destruct l as [|x l]; [reflexivity|].
    change (print n (TItems (x :: l))) with (B"[" ++ join (B",") (map (fun x => new_line (S n) ++ print (S n) x) (x :: l)) ++ new_line n ++ B"]").
    rewrite <- !app_assoc. pose proof (items_read (x :: l) n f r F ltac:(discriminate) ltac:(lia)) as R.
    set (body := join _ _ ++ _) in *. change (B"[" ++ body) with ("["%char :: body). cbn [tree_at]. rewrite head_skip by reflexivity.
    change (ceqb "[" dquote) with false. change (ceqb "[" "[") with true. cbv iota.
    assert (X : exists c s, skip_ws body = c :: s /\ ceqb c "]" = false).
    { inversion F as [|? ? (Px & _) _]; subst. destruct (print_head x (S n) Px) as (c & s & E & W & K & _). unfold body.
      destruct l; [cbn [map join]|change (join (B",") (map (fun x => new_line (S n) ++ print (S n) x) (x :: j :: l))) with ((new_line (S n) ++ print (S n) x) ++ B"," ++ join (B",") (map (fun x => new_line (S n) ++ print (S n) x) (j :: l)))];
        rewrite <- !app_assoc, skip_new_line, E; cbn [app]; rewrite head_skip by exact W; eauto. }
    destruct X as (c & s & -> & ->). rewrite R. reflexivity.
  - split; [constructor; eapply Forall_impl; [|exact F]; intros a (Ua & Pa & _); split; assumption|]. intros n f r C L. cbn [cost] in C. destruct f as [|f]; [lia|].
    destruct l as [|[k x] l]; [reflexivity|].
    change (print n (TObject ((k, x) :: l))) with (B"{" ++ join (B",") (map (fun p => new_line (S n) ++ quote_text (fst p) ++ B": " ++ print (S n) (snd p)) ((k, x) :: l)) ++ new_line n ++ B"}").
    rewrite <- !app_assoc. pose proof (members_read ((k, x) :: l) n f r F ltac:(discriminate) ltac:(lia)) as R.
    set (body := join _ _ ++ _) in *. change (B"{" ++ body) with ("{"%char :: body). cbn [tree_at]. rewrite head_skip by reflexivity.
    change (ceqb "{" dquote) with false. change (ceqb "{" "[") with false. change (ceqb "{" "{") with true. cbv iota.
    assert (X : exists s, skip_ws body = dquote :: s).
    { unfold body. destruct l as [|j l]; [cbn [map join fst snd]|change (join (B",") (map (fun p => new_line (S n) ++ quote_text (fst p) ++ B": " ++ print (S n) (snd p)) ((k, x) :: j :: l))) with ((new_line (S n) ++ quote_text k ++ B": " ++ print (S n) x) ++ B"," ++ join (B",") (map (fun p => new_line (S n) ++ quote_text (fst p) ++ B": " ++ print (S n) (snd p)) (j :: l)))];
        rewrite <- !app_assoc, skip_new_line; unfold quote_text; cbn [app]; rewrite head_skip by reflexivity; eauto. }
    destruct X as (s & ->). change (ceqb dquote "}") with false. cbv iota. rewrite R. reflexivity.
Qed.
Lemma cost_le : forall j n, plain j -> (cost j <= List.length (print n j))%nat.
Proof.
  intros j n H. revert n. induction H as [| | |z|s U|l F|l F] using plain_ind'; intros n; try (cbn; lia).
  - cbn [cost print]. destruct (Z_dec_some z) as (c & w & ->). cbn [List.length]. lia.
  - destruct l as [|x l]; [cbn; lia|].
    change (print n (TItems (x :: l))) with (B"[" ++ join (B",") (map (fun x => new_line (S n) ++ print (S n) x) (x :: l)) ++ new_line n ++ B"]").
    cbn [cost]. rewrite !app_length. change (List.length (B"[")) with 1%nat. change (List.length (B"]")) with 1%nat.
    enough (list_sum (map (fun x => S (cost x)) (x :: l)) <= List.length (join (B",") (map (fun x => new_line (S n) ++ print (S n) x) (x :: l))))%nat by lia.
    induction F as [|y l' Hy F IH]; [cbn; lia|]. cbn [map list_sum fold_right].
    assert (J : (List.length (new_line (S n) ++ print (S n) y) + List.length (join (B",") (map (fun x => new_line (S n) ++ print (S n) x) l'))
      <= List.length (join (B",") ((new_line (S n) ++ print (S n) y) :: map (fun x => new_line (S n) ++ print (S n) x) l')))%nat).
    { destruct l'; cbn [map join]; rewrite !app_length; cbn; lia. }
    rewrite app_length in J. assert (1 <= List.length (new_line (S n)))%nat by (unfold new_line; cbn [List.length]; lia). specialize (Hy (S n)).
    unfold list_sum in IH. lia.
  - destruct l as [|x l]; [cbn; lia|].
    change (print n (TObject (x :: l))) with (B"{" ++ join (B",") (map (fun p => new_line (S n) ++ quote_text (fst p) ++ B": " ++ print (S n) (snd p)) (x :: l)) ++ new_line n ++ B"}").
    cbn [cost]. rewrite !app_length. change (List.length (B"{")) with 1%nat. change (List.length (B"}")) with 1%nat.
    enough (list_sum (map (fun p => S (cost (snd p))) (x :: l)) <= List.length (join (B",") (map (fun p => new_line (S n) ++ quote_text (fst p) ++ B": " ++ print (S n) (snd p)) (x :: l))))%nat by lia.
    induction F as [|y l' Hy F IH]; [cbn; lia|]. destruct Hy as (_ & Hy). cbn [map list_sum fold_right].
    set (g := fun p => new_line (S n) ++ quote_text (fst p) ++ B": " ++ print (S n) (snd p)) in *.
    assert (J : (List.length (g y) + List.length (join (B",") (map g l')) <= List.length (join (B",") (g y :: map g l')))%nat).
    { destruct l'; cbn [map join]; rewrite ?app_length; cbn; lia. }
    unfold g in J at 1. rewrite !app_length in J. assert (1 <= List.length (new_line (S n)))%nat by (unfold new_line; cbn [List.length]; lia). specialize (Hy (S n)).
    unfold list_sum in IH. etransitivity; [|exact J]. lia.
Qed.
Lemma read_file : forall j, plain j -> exists r, tree_at (S (List.length (print 0 j ++ [LF]))) (print 0 j ++ [LF]) = Some (j, r).
Proof.
  intros j H. exists [LF]. apply (read_print j H); [|reflexivity]. pose proof (cost_le j 0 H). rewrite app_length. lia.
Qed.
