(** Facts about reading arrays of Postgres and about the JSON written for them. *)
From Coq Require Import Lia ZifyBool ZifyNat.
From Verif Require Import GoStr GoStrFacts ModelSq ModelDdl ModelCache CacheFacts ModelCsv ModelArray SpecArray.

(** ** No crash *)
Lemma quoted_shorter : forall s b e x r, quoted b e s = Some (x, r) -> List.length r < List.length s.
Proof.
  induction s as [|c s IH]; intros b e x r H; cbn [quoted] in H; [discriminate|]. cbn [List.length].
  destruct b; [apply IH in H; lia|]. destruct (ceqb c backslash); [apply IH in H; lia|].
  destruct (ceqb c dquote); [injection H as <- <-; lia|]. apply IH in H; lia.
Qed.
Lemma unquoted_shorter : forall s e x r, unquoted e s = Some (x, r) -> List.length r <= List.length s.
Proof.
  induction s as [|c s IH]; intros e x r H; cbn [unquoted] in H; [discriminate|]. cbn [List.length].
  destruct (ceqb c comma || ceqb c rbrace); [injection H as <- <-; cbn; lia|]. apply IH in H; lia.
Qed.
(** The dimensions that are closed have been counted. *)
Definition counted (depth : nat) (dims : list nat) : Prop :=
  depth <= List.length dims /\ forall i n, depth <= i -> nth_error dims i = Some n -> n <> 0.
Lemma set_dim_some : forall i f dims, i < List.length dims -> exists n, nth_error dims i = Some n /\ set_dim (S i) f dims = Ok (set_nth i (f n) dims).
Proof.
  intros i f dims H. unfold set_dim. destruct (nth_error dims i) as [n|] eqn:E; [eauto|]. apply nth_error_None in E. lia.
Qed.
Lemma set_nth_length : forall {A} i (a : A) l, List.length (set_nth i a l) = List.length l.
Proof. induction i as [|i IH]; intros a [|x l]; cbn; auto. Qed.
Lemma elements_safe : forall fuel b depth dims elems s,
  counted depth dims -> 2 * List.length s + (if b : bool then 1 else 0) < fuel ->
  match elements fuel b depth dims elems s with
  | Panic => False
  | Ok (dims', elems') => counted 0 dims'
  | Err => True
  end.
Proof.
  induction fuel as [|fuel IH]; intros b depth dims elems s (D & C) F; [lia|]. cbn [elements]. destruct s as [|c s].
  { destruct depth; cbn; [split; [lia|exact C]|exact Logic.I]. }
  cbn [List.length] in F. destruct b.
  - destruct (ceqb c lbrace).
    + destruct (Nat.eqb_spec depth (List.length dims)) as [E|E]; [apply IH; [split; auto|cbn [List.length]; lia]|].
      destruct (set_dim_some depth (fun _ => 0) dims) as (n & N & ->); [lia|]. cbn [bindr]. apply IH; [|lia]. split; [rewrite set_nth_length; lia|].
      intros i m L H. rewrite set_nth_other in H by lia. apply (C i m); [lia|exact H].
    + destruct (ceqb c dquote).
      * destruct (quoted false [] s) as [[e r]|] eqn:Q; [apply quoted_shorter in Q; apply IH; [split; auto|lia]|apply IH; [split; auto|cbn; lia]].
      * destruct (unquoted [] (c :: s)) as [[[|x e] r]|] eqn:Q; [exact Logic.I| |apply IH; [split; auto|cbn; lia]].
        apply unquoted_shorter in Q. cbn [List.length] in Q. apply IH; [split; auto|lia].
  - assert (Up : depth <> 0 -> counted (depth - 1) (match nth_error dims (depth - 1) with Some n => set_nth (depth - 1) (S n) dims | None => dims end)
      /\ exists n, nth_error dims (depth - 1) = Some n /\ set_dim depth S dims = Ok (set_nth (depth - 1) (S n) dims)).
    { intros Z. destruct (set_dim_some (depth - 1) S dims) as (n & N & E); [lia|]. replace (S (depth - 1)) with depth in E by lia. rewrite N. split; [|eauto].
      split; [rewrite set_nth_length; lia|]. intros i m L H. destruct (Nat.eq_dec i (depth - 1)) as [->|O].
      - rewrite (set_nth_same _ _ _ _ N) in H. injection H as <-. lia.
      - rewrite set_nth_other in H by lia. apply (C i m); [lia|exact H]. }
    destruct (ceqb c comma && negb (depth =? 0)) eqn:K1.
    + apply andb_true_iff in K1 as (_ & K). destruct Up as ((A1 & A2) & n & N & E); [lia|]. rewrite E. rewrite N in A1, A2. cbn [bindr]. apply IH; [|lia].
      split; [rewrite set_nth_length; lia|]. intros i m L H. apply (A2 i m); [lia|exact H].
    + destruct (ceqb c rbrace && negb (depth =? 0)) eqn:K2; [|exact Logic.I].
      apply andb_true_iff in K2 as (_ & K). destruct Up as (A & n & N & E); [lia|]. rewrite E. rewrite N in A. cbn [bindr]. apply IH; [exact A|lia].
Qed.
Lemma check_dims_safe : forall n dims, (forall i d, nth_error dims i = Some d -> d <> 0) -> check_dims n dims <> Panic.
Proof.
  intros n. induction dims as [|d dims IH]; intros H; cbn [check_dims]; [discriminate|].
  destruct d as [|d]; [exfalso; apply (H 0 0); reflexivity|]. destruct (check_dims n dims) eqn:E; cbn [bindr].
  - destruct (n mod S d =? 0); discriminate.
  - discriminate.
  - exfalso. apply IH; [|reflexivity]. intros i x Hx. apply (H (S i) x Hx).
Qed.
Lemma closing_safe : forall s n, closing n s <> Panic.
Proof. induction s as [|c s IH]; intros [|n]; cbn [closing]; try discriminate. destruct (ceqb c rbrace); [apply IH|discriminate]. Qed.
Lemma opening_shorter : forall s n d r, opening n s = (d, r) -> List.length r <= List.length s.
Proof.
  induction s as [|c s IH]; intros n d r H; cbn [opening] in H; [injection H as <- <-; reflexivity|].
  destruct (ceqb c lbrace); [apply IH in H; cbn; lia|injection H as <- <-; reflexivity].
Qed.
Lemma parse_array_safe : forall s, parse_array s <> Panic.
Proof.
  intros [|c s]; unfold parse_array; [discriminate|]. destruct (ceqb c lbrace); [|discriminate].
  destruct (opening 0 (c :: s)) as [depth rest] eqn:E. apply opening_shorter in E. cbn [List.length] in E. destruct rest as [|r rest]; [discriminate|]. cbn [List.length] in E.
  destruct (ceqb r rbrace).
  - pose proof (closing_safe (r :: rest) depth). destruct (closing depth (r :: rest)); [discriminate|discriminate|congruence].
  - pose proof (elements_safe (2 * List.length (c :: s) + 2) true depth (repeat 0 depth) [] (r :: rest)) as H.
    destruct (elements _ true depth (repeat 0 depth) [] (r :: rest)) as [[dims elems]| |]; cbn [bindr].
    + assert (K : counted 0 dims).
      { apply H; [|cbn [List.length]; lia]. split; [rewrite repeat_length; lia|]. intros i n L K.
        assert (i < List.length (repeat 0 depth)) by (apply nth_error_Some; congruence). rewrite repeat_length in *. lia. }
      destruct K as (_ & K). pose proof (check_dims_safe (List.length elems) dims (fun i d => K i d (Nat.le_0_l i))) as S.
      destruct (check_dims (List.length elems) dims); [discriminate|discriminate|congruence].
    + discriminate.
    + exfalso. apply H; [|cbn [List.length]; lia]. split; [rewrite repeat_length; lia|]. intros i n L K.
      assert (i < List.length (repeat 0 depth)) by (apply nth_error_Some; congruence). rewrite repeat_length in *. lia.
Qed.
Lemma each_safe : forall {A C} (f : A -> result C), (forall a, f a <> Panic) -> forall l, each f l <> Panic.
Proof.
  intros A C f H. induction l as [|a l IH]; cbn [each]; [discriminate|]. specialize (H a). destruct (f a); cbn [bindr]; [|discriminate|congruence].
  destruct (each f l); cbn [bindr]; [discriminate|discriminate|congruence].
Qed.
Lemma dump_array_safe : forall flt t s, dump_array flt t s <> Panic.
Proof.
  intros flt t s. unfold dump_array, scan_linear. pose proof (parse_array_safe s) as P. destruct (parse_array s) as [[dims elems]| |]; cbn [bindr]; [|discriminate|congruence].
  destruct (List.length dims <=? 1); cbn [bindr]; [|discriminate].
  assert (K : forall A C (f : A -> result C) g l, (forall a, f a <> Panic) -> bindr (bindr (each f l) g) (fun l => Ok (json_array l)) = Panic -> exists x, g x = Panic).
  { intros A C f g l F H. pose proof (each_safe f F l). destruct (each f l) as [x| |]; cbn [bindr] in H; [|discriminate|congruence]. exists x. destruct (g x); [discriminate|discriminate|reflexivity]. }
  intros H. destruct (one_of t ["BOOLEAN[]"]%string); [|destruct (one_of t ["SMALLINT[]"; "INT[]"; "INTEGER[]"; "BIGINT[]"]%string);
    [|destruct (one_of t ["NUMERIC[]"; "REAL[]"; "DOUBLE PRECISION[]"]%string)]]; apply K in H as (x & H); try discriminate.
  - intros [[|c []]|]; cbn; try discriminate. destruct (ceqb c "t"); [discriminate|]. destruct (ceqb c "f"); discriminate.
  - intros [v|]; unfold scan_int, parse_int; [|discriminate]. destruct (match v with [] => _ | _ => _ end) as [neg ds]. destruct (dec_N ds); [|discriminate].
    match goal with |- (if ?x then _ else _) <> _ => destruct x end; discriminate.
  - intros v. unfold scan_float. destruct (flt _); discriminate.
  - intros [v|]; discriminate.
Qed.

(** ** What Postgres writes is read *)
Definition elem_of (v : pg_value) : option bytes := match v with Element e => Some e | _ => None end.
Definition flat_value (v : pg_value) : Prop := match v with Nested _ => False | _ => True end.
Lemma quoted_app : forall e acc s, quoted false acc (flat_map escaped e ++ dquote :: s) = Some (acc ++ e, s).
Proof.
  induction e as [|c e IH]; intros acc s; cbn [flat_map app quoted].
  { change (ceqb dquote backslash) with false. change (ceqb dquote dquote) with true. rewrite app_nil_r. reflexivity. }
  unfold escaped at 1. destruct (ceqb c """") eqn:E1; [|destruct (ceqb c "\") eqn:E2]; cbn [orb app quoted].
  - change (ceqb "\" backslash) with true. cbv iota. rewrite IH, <- app_assoc. reflexivity.
  - change (ceqb "\" backslash) with true. cbv iota. rewrite IH, <- app_assoc. reflexivity.
  - change (ceqb c backslash) with (ceqb c "\"). rewrite E2. change (ceqb c dquote) with (ceqb c """"). rewrite E1. rewrite IH, <- app_assoc. reflexivity.
Qed.
Definition stops (s : bytes) : Prop := match s with c :: _ => c = comma \/ c = rbrace | [] => False end.
Lemma unquoted_app : forall e acc s, (forall c, In c e -> ~ special c) -> stops s -> unquoted acc (e ++ s) = Some (acc ++ e, s).
Proof.
  induction e as [|c e IH]; intros acc s H S; cbn [app unquoted].
  { destruct s as [|c s]; [contradiction|]. cbn [unquoted]. assert (ceqb c comma || ceqb c rbrace = true) as -> by (destruct S as [->| ->]; reflexivity). rewrite app_nil_r. reflexivity. }
  assert (N : ~ special c) by (apply H; left; reflexivity).
  assert (ceqb c comma || ceqb c rbrace = false) as ->.
  { destruct (ceqb_spec c comma) as [->|_]; [exfalso; apply N; left; cbn; auto|]. destruct (ceqb_spec c rbrace) as [->|_]; [exfalso; apply N; left; cbn; auto|]. reflexivity. }
  rewrite IH; [rewrite <- app_assoc; reflexivity| |exact S]. intros x Hx. apply H. right. exact Hx.
Qed.
Lemma written_element : forall v t rest fuel k acc, written v t -> flat_value v -> stops rest ->
  elements (S fuel) true 1 [k] acc (t ++ rest) = elements fuel false 1 [k] (acc ++ [elem_of v]) rest.
Proof.
  intros v t rest fuel k acc W F S. destruct W as [|e N P U|e|l ts W]; [| | |contradiction].
  - change (B"NULL" ++ rest) with ("N"%char :: B"ULL" ++ rest). cbn [elements].
    change (ceqb "N" lbrace) with false. change (ceqb "N" dquote) with false. cbv iota.
    change ("N"%char :: B"ULL" ++ rest) with (B"NULL" ++ rest). rewrite unquoted_app; [reflexivity| |exact S].
    intros c [<-|[<-|[<-|[<-|[]]]]] [K|K]; try (cbn in K; lia); cbn in K; intuition discriminate.
  - destruct e as [|c e]; [contradiction|]. assert (Nc : ~ special c) by (apply P; left; reflexivity). cbn [app elements].
    assert (ceqb c lbrace = false) as -> by (destruct (ceqb_spec c lbrace) as [->|_]; [exfalso; apply Nc; left; cbn; auto|reflexivity]).
    assert (ceqb c dquote = false) as -> by (destruct (ceqb_spec c dquote) as [->|_]; [exfalso; apply Nc; left; cbn; auto|reflexivity]).
    change (c :: e ++ rest) with ((c :: e) ++ rest). rewrite unquoted_app by assumption. cbn [app].
    assert (beqb (c :: e) (B"NULL") = false) as ->; [|reflexivity].
    destruct (beqb (c :: e) (B"NULL")) eqn:E; [|reflexivity]. apply beqb_eq in E. rewrite E in U. discriminate U.
  - change (B"""") with [dquote]. rewrite <- !app_assoc. cbn [app elements].
    change (ceqb dquote lbrace) with false. change (ceqb dquote dquote) with true. cbv iota. rewrite quoted_app. reflexivity.
Qed.
Lemma written_elements : forall l ts, written_all l ts -> Forall flat_value l -> forall fuel k acc, l <> [] ->
  2 * List.length l <= fuel ->
  elements (S fuel) true 1 [k] acc (join (B",") ts ++ [rbrace]) = Ok ([k + List.length l], acc ++ map elem_of l).
Proof.
  intros l ts W. induction W as [|v t l ts W Ws IH]; intros F fuel k acc N L; [contradiction|].
  inversion F as [|? ? Fv Fl]; subst. cbn [List.length] in L. destruct Ws as [|v' t' l' ts' W' Ws'].
  - cbn [join]. rewrite (written_element v t) by (try assumption; right; reflexivity). destruct fuel as [|fuel]; [lia|]. cbn [elements].
    change (ceqb rbrace comma) with false. change (ceqb rbrace rbrace) with true. cbn [andb negb Nat.eqb set_dim nth_error bindr set_nth Nat.sub].
    destruct fuel as [|fuel]; [cbn in L; lia|]. cbn [elements closing bindr List.length map]. do 3 f_equal. lia.
  - rewrite join_cons by discriminate. rewrite <- !app_assoc. change (B"," ++ join (B",") (t' :: ts') ++ [rbrace]) with (comma :: join (B",") (t' :: ts') ++ [rbrace]).
    rewrite (written_element v t) by (try assumption; left; reflexivity).
    destruct fuel as [|fuel]; [lia|]. cbn [elements]. change (ceqb comma comma) with true.
    cbn [andb negb Nat.eqb set_dim nth_error bindr set_nth]. destruct fuel as [|fuel]; [cbn in L; lia|].
    rewrite IH; [|assumption|discriminate|cbn [List.length] in L |- *; lia]. cbn [map List.length]. rewrite <- app_assoc. do 2 f_equal. f_equal. lia.
Qed.
Lemma written_first : forall v t, written v t -> flat_value v -> exists c r, t = c :: r /\ c <> lbrace /\ c <> rbrace.
Proof.
  intros v t W F. destruct W as [|e N P U|e|l ts W]; [| | |contradiction].
  - exists "N"%char, (B"ULL"). split; [reflexivity|]. split; discriminate.
  - destruct e as [|c e]; [contradiction|]. exists c, e. split; [reflexivity|]. assert (Nc : ~ special c) by (apply P; left; reflexivity).
    split; intros ->; apply Nc; left; cbn; auto.
  - exists dquote, (flat_map escaped e ++ B""""). split; [reflexivity|]. split; discriminate.
Qed.
Lemma written_length : forall l ts, written_all l ts -> Forall flat_value l -> List.length l <= List.length (join (B",") ts).
Proof.
  intros l ts W. induction W as [|v t l ts W Ws IH]; intros F; [cbn; lia|]. inversion F as [|? ? Fv Fl]; subst. specialize (IH Fl).
  destruct (written_first v t W Fv) as (c & r & -> & _). destruct Ws as [|v' t' l' ts' W' Ws'].
  - cbn [join List.length]. lia.
  - rewrite join_cons by discriminate. rewrite !app_length. cbn [List.length] in *. lia.
Qed.
Lemma scan_written : forall l t, written (Nested l) t -> Forall flat_value l -> scan_linear t = Ok (map elem_of l).
Proof.
  intros l t W F. inversion W as [| | |l' ts Ws]; subst. unfold scan_linear, parse_array. change (B"{" ++ join (B",") ts ++ B"}") with (lbrace :: join (B",") ts ++ [rbrace]).
  change (ceqb lbrace lbrace) with true. cbv iota. cbn [opening]. change (ceqb lbrace lbrace) with true. cbv iota.
  pose proof (written_length _ _ Ws F) as L. destruct l as [|v l].
  { inversion Ws; subst. reflexivity. }
  assert (E : exists c r, join (B",") ts ++ [rbrace] = c :: r /\ c <> lbrace /\ c <> rbrace).
  { inversion Ws as [|? t1 ? ts1 W1 Ws1]; subst. inversion F as [|? ? Fv Fl]; subst. destruct (written_first _ _ W1 Fv) as (c & r & -> & K).
    destruct ts1; [exists c, (r ++ [rbrace])|exists c, ((r ++ B"," ++ join (B",") (b :: ts1)) ++ [rbrace])]; split; try exact K; [reflexivity|].
    rewrite join_cons by discriminate. reflexivity. }
  destruct E as (c & r & E & K1 & K2). rewrite E at 1. cbn [opening]. destruct (ceqb_spec c lbrace) as [->|_]; [contradiction|].
  destruct (ceqb_spec c rbrace) as [->|_]; [contradiction|]. rewrite <- E.
  replace (2 * List.length (lbrace :: join (B",") ts ++ [rbrace]) + 2) with (S (2 * List.length (lbrace :: join (B",") ts ++ [rbrace]) + 1)) by lia.
  cbn [repeat]. rewrite (written_elements (v :: l) ts Ws F); [|discriminate|cbn [List.length]; rewrite app_length; cbn [List.length] in *; lia].
  cbn [bindr app Nat.add]. rewrite map_length. unfold check_dims. cbn [List.length]. rewrite Nat.mod_same by lia. reflexivity.
Qed.

(** ** The JSON *)
Definition json_shape (c : ascii) : bool :=
  match json_char c with
  | [x] => ceqb x c && negb (ceqb c """") && negb (nat_of_ascii c <? 32) && negb (ceqb c "\")
  | [x; e] => ceqb x "\" && negb (ceqb e "u") && match simple_escape e with Some y => ceqb y c | None => false end
  | [x; u; h1; h2; h3; h4] =>
      ceqb x "\" && ceqb u "u"
      && match hex_value h1, hex_value h2, hex_value h3, hex_value h4 with
         | Some 0, Some 0, Some a, Some b => (a <? 8) && ceqb (ascii_of_nat (16 * a + b)) c
         | _, _, _, _ => false
         end
  | _ => false
  end.
Lemma json_shape_all : forall c, json_shape c = true.
Proof. intros [[] [] [] [] [] [] [] []]; vm_compute; reflexivity. Qed.
Lemma json_text_char : forall c x, json_text (json_char c ++ x) = match json_text x with Some (t, r) => Some (c :: t, r) | None => None end.
Proof.
  intros c x. pose proof (json_shape_all c) as H. unfold json_shape in H. destruct (json_char c) as [|y [|e [|h1 [|h2 [|h3 [|h4 []]]]]]]; try discriminate H.
  - apply andb_true_iff in H as (H & H4). apply andb_true_iff in H as (H & H3). apply andb_true_iff in H as (H & H2). apply negb_true_iff in H2, H3, H4.
    destruct (ceqb_spec y c) as [E|]; [|discriminate]. rewrite E. cbn [app json_text]. rewrite H2, H3, H4. reflexivity.
  - apply andb_true_iff in H as (H & H3). apply andb_true_iff in H as (H & H2). apply negb_true_iff in H2. destruct (ceqb_spec y "\") as [E1|]; [|discriminate]; rewrite E1.
    cbn [app json_text]. change (ceqb "\" """") with false. change (nat_of_ascii "\" <? 32) with false. change (ceqb "\" "\") with true. cbv iota. rewrite H2.
    destruct (simple_escape e) as [z|]; [|discriminate]. destruct (ceqb_spec z c) as [E2|]; [|discriminate]. rewrite E2. reflexivity.
  - apply andb_true_iff in H as (H & H3). apply andb_true_iff in H as (H & H2). destruct (ceqb_spec y "\") as [E1|]; [|discriminate]; rewrite E1. destruct (ceqb_spec e "u") as [E2|]; [|discriminate]; rewrite E2.
    cbn [app json_text]. change (ceqb "\" """") with false. change (nat_of_ascii "\" <? 32) with false. change (ceqb "\" "\") with true. change (ceqb "u" "u") with true. cbv iota.
    destruct (hex_value h1) as [[|]|]; try discriminate. destruct (hex_value h2) as [[|]|]; try discriminate. destruct (hex_value h3) as [a|]; [|discriminate]. destruct (hex_value h4) as [b|]; [|discriminate].
    apply andb_true_iff in H3 as (H3 & H4). rewrite H3. destruct (ceqb_spec (ascii_of_nat (16 * a + b)) c) as [E|]; [|discriminate]. rewrite E. reflexivity.
Qed.
Lemma json_text_string : forall s x, json_text (flat_map json_char s ++ dquote :: x) = Some (s, x).
Proof. induction s as [|c s IH]; intros x; [reflexivity|]. cbn [flat_map]. rewrite <- app_assoc, json_text_char, IH. reflexivity. Qed.
Definition word_char (c : ascii) : Prop := c <> ","%char /\ c <> "]"%char.
Lemma json_word_app : forall w r, Forall word_char w -> (match r with c :: _ => c = ","%char \/ c = "]"%char | [] => True end) -> json_word (w ++ r) = (w, r).
Proof.
  induction w as [|c w IH]; intros r F R; cbn [app json_word].
  - destruct r as [|c r]; [reflexivity|]. cbn [json_word]. assert (ceqb c "," || ceqb c "]" = true) as -> by (destruct R as [->| ->]; reflexivity). reflexivity.
  - inversion F as [|? ? (N1 & N2) F']; subst. rewrite IH by assumption.
    destruct (ceqb_spec c ","); [contradiction|]. destruct (ceqb_spec c "]"); [contradiction|]. reflexivity.
Qed.
(** A digit is not the first byte of a number unless it is the number 0. *)
Lemma N_dec_aux_head : forall fuel n acc, (0 < n < 2 ^ N.of_nat fuel)%N -> exists c r, N_dec_aux fuel n acc = c :: r /\ is_digit c = true /\ c <> "0"%char.
Proof.
  induction fuel as [|f IH]; intros n acc (P & L); [cbn in L; lia|]. cbn [N_dec_aux].
  assert (Hm : (n mod 10 < 10)%N) by (apply N.mod_lt; lia). assert (Hdm : n = (10 * (n / 10) + n mod 10)%N) by (apply N.div_mod; lia).
  destruct (N.eqb_spec (n / 10) 0) as [Z|Z].
  - exists (digit (n mod 10)), acc. split; [reflexivity|]. split; [apply digit_is_digit; exact Hm|]. intros E. apply (f_equal digit_val) in E. rewrite digit_val_digit in E by exact Hm.
    change (digit_val "0") with 0%N in E. lia.
  - apply IH. split; [lia|]. replace (N.of_nat (S f)) with (N.succ (N.of_nat f)) in L by lia. rewrite N.pow_succ_r' in L. lia.
Qed.
Lemma N_dec_head : forall p, exists c r, N_dec (Npos p) = c :: r /\ is_digit c = true /\ c <> "0"%char.
Proof.
  intros p. unfold N_dec. apply N_dec_aux_head. split; [lia|]. replace (N.of_nat (S (N.to_nat (N.log2 (N.pos p))))) with (N.succ (N.log2 (N.pos p))) by lia. apply N.log2_spec. lia.
Qed.
Lemma json_digits_all : forall s, Forall (fun c => is_digit c = true) s -> json_digits s = (List.length s, []).
Proof. induction s as [|c s IH]; intros F; [reflexivity|]. inversion F as [|? ? D F']; subst. cbn [json_digits]. rewrite D, IH by assumption. reflexivity. Qed.
Lemma json_number_pos : forall p (s : bytes), s = N_dec (Npos p) -> (match s with
  | c :: s' => if ceqb c "0" then json_fraction s' else match json_digits s with (S _, r) => json_fraction r | _ => false end
  | [] => false end) = true.
Proof.
  intros p s E. destruct (N_dec_head p) as (c & r & E' & D & Z). pose proof (N_dec_digits (Npos p)) as F. rewrite <- E in E', F. rewrite E' in *.
  destruct (ceqb_spec c "0"); [contradiction|]. rewrite json_digits_all by assumption. reflexivity.
Qed.
Lemma json_number_dec : forall z, json_number (Z_dec z) = true.
Proof.
  intros [|p|p]; [reflexivity| |].
  - unfold json_number, Z_dec. destruct (N_dec_head p) as (c & r & E & D & Z). rewrite E. assert (ceqb c "-" = false) as ->.
    { destruct (ceqb_spec c "-") as [->|]; [discriminate D|reflexivity]. } exact (json_number_pos p (c :: r) (eq_sym E)).
  - unfold json_number, Z_dec. change (ceqb "-" "-") with true. cbv iota. apply (json_number_pos p). reflexivity.
Qed.
Lemma dec_char : forall z c, In c (Z_dec z) -> is_digit c = true \/ c = "-"%char.
Proof.
  intros z c I. assert (N : forall n, In c (N_dec n) -> is_digit c = true) by (intros n J; pose proof (N_dec_digits n) as F; rewrite Forall_forall in F; auto).
  unfold Z_dec in I. destruct z; [left; exact (N _ I)|left; exact (N _ I)|]. destruct I as [E|I]; [right; symmetry; exact E|left; exact (N _ I)].
Qed.
Lemma dec_words : forall z, Forall word_char (Z_dec z).
Proof.
  intros z. apply Forall_forall. intros c I. destruct (dec_char z c I) as [D| ->]; [|split; discriminate]. split; intros ->; discriminate D.
Qed.
Lemma json_scalar_dec : forall z, json_scalar (Z_dec z) = Some (JNumber (Z_dec z)).
Proof.
  intros z. unfold json_scalar. rewrite json_number_dec.
  assert (K : forall c w, is_digit c = false -> c <> "-"%char -> beqb (Z_dec z) (c :: w) = false).
  { intros c w D N. destruct (beqb (Z_dec z) (c :: w)) eqn:E; [|reflexivity]. apply beqb_eq in E. destruct (dec_char z c) as [H|H]; [rewrite E; left; reflexivity|congruence|contradiction]. }
  change (B"null") with ("n"%char :: B"ull"). change (B"true") with ("t"%char :: B"rue"). change (B"false") with ("f"%char :: B"alse").
  rewrite !K by (reflexivity || discriminate). reflexivity.
Qed.
Lemma Z_dec_some : forall z, exists c r, Z_dec z = c :: r.
Proof. intros z. destruct (Z_dec z) as [|c r] eqn:E; [|eauto]. exfalso. unfold Z_dec in E. destruct z; [|exact (N_dec_nonempty _ E)|discriminate]. exact (N_dec_nonempty _ E). Qed.
Definition json_of (e : elem) : json :=
  match e with EInt z => JNumber (Z_dec z) | EBool b => if b then JTrue else JFalse | EFloat b => JNumber b | EText b => JString b end.
Definition not_float (e : elem) : Prop := match e with EFloat _ => False | _ => True end.
Lemma json_item : forall e fuel x, not_float e -> (match x with c :: _ => c = ","%char \/ c = "]"%char | [] => False end) ->
  json_items (S fuel) (json_elem e ++ x) =
  match x with
  | [c] => if ceqb c "]"%char then Some [json_of e] else None
  | c :: r' => if ceqb c ","%char then match json_items fuel r' with Some l => Some (json_of e :: l) | None => None end else None
  | [] => None
  end.
Proof.
  intros e fuel x N X. assert (W : forall w, Forall word_char w -> json_scalar w = Some (json_of e) -> hd_error w <> None -> hd_error w <> Some """"%char ->
    json_items (S fuel) (w ++ x) = match x with
      | [c] => if ceqb c "]"%char then Some [json_of e] else None
      | c :: r' => if ceqb c ","%char then match json_items fuel r' with Some l => Some (json_of e :: l) | None => None end else None
      | [] => None end).
  { intros w F S H0 H1. assert (J : json_word (w ++ x) = (w, x)) by (apply json_word_app; [exact F|destruct x; [exact Logic.I|exact X]]).
    destruct w as [|c w]; [contradiction|]. cbn [json_items app]. cbn [app] in J. cbn [hd_error] in H1. destruct (ceqb_spec c """") as [->|_]; [congruence|]. rewrite J, S. reflexivity. }
  destruct e as [z|b|b|b]; [| |contradiction|].
  - apply W; [apply dec_words|apply json_scalar_dec| |].
    + cbn [json_elem]. destruct (Z_dec_some z) as (c & r & ->). discriminate.
    + cbn [json_elem]. destruct (Z_dec z) as [|c w] eqn:E; [discriminate|]. intros K. apply (f_equal (fun o => match o with Some a => a | None => c end)) in K. cbn in K. subst c. destruct (dec_char z """"%char) as [H|H]; [rewrite E; left; reflexivity|discriminate|discriminate].
  - apply W; destruct b; try reflexivity; try discriminate; repeat (constructor; [split; discriminate|]); constructor.
  - cbn [json_elem]. unfold json_string. rewrite <- !app_assoc. cbn [app json_items]. change (ceqb dquote """") with true. cbv iota. rewrite json_text_string. reflexivity.
Qed.
Lemma json_items_read : forall l, Forall not_float l -> l <> [] -> forall fuel, List.length l <= fuel ->
  json_items fuel (join (B",") (map json_elem l) ++ B"]") = Some (map json_of l).
Proof.
  induction l as [|e l IH]; intros F N fuel L; [contradiction|]. inversion F as [|? ? Fe Fl]; subst. destruct fuel as [|fuel]; [cbn in L; lia|]. cbn [List.length] in L.
  destruct l as [|e' l].
  - cbn [map join]. rewrite json_item; [reflexivity|exact Fe|right; reflexivity].
  - cbn [map]. rewrite join_cons by discriminate. rewrite <- !app_assoc. change (B"," ++ ?x) with (","%char :: x).
    rewrite json_item; [|exact Fe|left; reflexivity]. change (ceqb "," ",") with true. cbv iota. change (json_elem e' :: map json_elem l) with (map json_elem (e' :: l)).
    rewrite (IH Fl); [|discriminate|lia]. destruct (join (B",") (map json_elem (e' :: l)) ++ B"]") eqn:E; [apply app_eq_nil in E as (_ & E); discriminate|reflexivity].
Qed.
Lemma json_read : forall l, Forall not_float l -> read_json (json_array l) = Some (JList (map json_of l)).
Proof.
  intros l F. unfold read_json, json_array. change (B"[" ++ ?x) with ("["%char :: x). cbv iota beta. change (ceqb "[" "[") with true. cbv iota.
  destruct l as [|e l]; [reflexivity|].
  assert (E : exists c r, join (B",") (map json_elem (e :: l)) = c :: r).
  { assert (J : exists c r, json_elem e = c :: r).
    { destruct e as [z|[]|b|b]; [| | |inversion F; contradiction|]; try (cbn; eauto; fail). apply Z_dec_some. }
    destruct J as (c & r & J). cbn [map]. destruct (map json_elem l); [exists c, r; exact J|]. rewrite join_cons by discriminate. rewrite J. cbn [app]. eauto. }
  assert (L : List.length (e :: l) <= List.length (join (B",") (map json_elem (e :: l)) ++ B"]")).
  { clear E F. rewrite app_length. cbn [List.length B list_ascii_of_string]. generalize e. induction l as [|e' l IH]; intros e0; [cbn; lia|]. cbn [map] in IH |- *. rewrite join_cons by discriminate. rewrite !app_length. specialize (IH e').
    cbn [List.length B list_ascii_of_string] in *. lia. }
  destruct E as (c & r & E). assert (beqb (join (B",") (map json_elem (e :: l)) ++ B"]") (B"]") = false) as ->.
  { rewrite E. destruct (beqb _ _) eqn:K; [|reflexivity]. apply beqb_eq in K. cbn [app] in K. apply (f_equal (@List.length ascii)) in K. cbn [List.length] in K. rewrite app_length in K. cbn in K. lia. }
  rewrite json_items_read; [reflexivity|exact F|discriminate|lia].
Qed.
