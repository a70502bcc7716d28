(** C81: an array of Postgres that is dumped as JSON has the elements of the array. *)
From Coq Require Import Lia ZifyBool ZifyNat.
From Verif Require Import GoStr GoStrFacts ModelSq ModelDdl ModelCsv ModelArray SpecArray ArrayFacts.

(** The field written for an array is a JSON array of the same elements. *)
Definition same_array (flt : bytes -> option bytes) (t : bytes) (k : pg_class) (l : list pg_value) (s : bytes) : Prop :=
  exists text js, dump_array flt t s = Ok text /\ read_json text = Some (JList js) /\ Forall2 (stands_for k) l js.

(** ** C81 *)
(** For every array of booleans, integers or texts, as Postgres writes it. *)
Definition C81_full : Prop := forall flt t k l s,
  type_class t = Some k -> Forall (element_of k) l -> written_array l s -> same_array flt t k l s.

Lemma each_ok : forall {A C D} (f : A -> result C) (g : D -> A) (h : D -> C) l, (forall x, In x l -> f (g x) = Ok (h x)) -> each f (map g l) = Ok (map h l).
Proof.
  intros A C D f g h. induction l as [|x l IH]; intros H; [reflexivity|]. cbn [map each]. rewrite H by (left; reflexivity). cbn [bindr].
  rewrite IH by (intros y Hy; apply H; right; exact Hy). reflexivity.
Qed.
Lemma forall2_maps : forall {A C D} (R : A -> C -> Prop) (f : D -> A) (g : D -> C) l, (forall x, In x l -> R (f x) (g x)) -> Forall2 R (map f l) (map g l).
Proof. intros A C D R f g. induction l as [|x l IH]; intros H; constructor; [apply H; left; reflexivity|apply IH; intros y Hy; apply H; right; exact Hy]. Qed.
Lemma parse_dec : forall z, (- 2 ^ 63 <= z < 2 ^ 63)%Z -> parse_int (Z_dec z) = Ok z.
Proof.
  intros z R. assert (P : forall p (neg : bool), (let z := (if neg then - Z.of_N p else Z.of_N p)%Z in - 2 ^ 63 <= z < 2 ^ 63)%Z ->
    match dec_N (N_dec p) with Some n => let z := (if neg then - Z.of_N n else Z.of_N n)%Z in if ((- 2 ^ 63 <=? z) && (z <? 2 ^ 63))%Z then Ok z else Err | None => Err end
    = Ok (if neg then - Z.of_N p else Z.of_N p)%Z).
  { intros p neg H. rewrite dec_N_N_dec. cbv zeta in *. set (v := (if neg then - Z.of_N p else Z.of_N p)%Z) in *.
    assert (((- 2 ^ 63 <=? v) && (v <? 2 ^ 63))%Z = true) as -> by lia. reflexivity. }
  unfold parse_int. destruct z as [|p|p]; [reflexivity| |].
  - unfold Z_dec. destruct (N_dec_head p) as (c & r & E & D & Z). rewrite E.
    assert (ceqb c "-" = false) as -> by (destruct (ceqb_spec c "-") as [->|]; [discriminate D|reflexivity]).
    assert (ceqb c "+" = false) as -> by (destruct (ceqb_spec c "+") as [->|]; [discriminate D|reflexivity]).
    rewrite <- E. exact (P (Npos p) false R).
  - unfold Z_dec. change (ceqb "-" "-") with true. cbv iota. exact (P (Npos p) true R).
Qed.
Definition given (v : pg_value) : Prop := v <> Missing.
Lemma booleans_of : forall l, Forall (element_of Booleans) l -> Forall given l -> exists bs, l = map (fun b : bool => Element (if b then B"t" else B"f")) bs.
Proof.
  induction l as [|v l IH]; intros F G; [exists []; reflexivity|]. inversion F as [|? ? Fv Fl]; subst. inversion G as [|? ? Gv Gl]; subst.
  destruct (IH Fl Gl) as (bs & ->). destruct v as [|t|]; [contradiction Gv; reflexivity| |contradiction]. destruct Fv as [->| ->]; [exists (true :: bs)|exists (false :: bs)]; reflexivity.
Qed.
Lemma integers_of : forall l, Forall (element_of Integers) l -> Forall given l ->
  exists zs, l = map (fun z => Element (Z_dec z)) zs /\ Forall (fun z => (- 2 ^ 63 <= z < 2 ^ 63)%Z) zs.
Proof.
  induction l as [|v l IH]; intros F G; [exists []; split; [reflexivity|constructor]|]. inversion F as [|? ? Fv Fl]; subst. inversion G as [|? ? Gv Gl]; subst.
  destruct (IH Fl Gl) as (zs & -> & Z). destruct v as [|t|]; [contradiction Gv; reflexivity| |contradiction]. destruct Fv as (z & R & ->). exists (z :: zs). split; [reflexivity|constructor; assumption].
Qed.
Lemma texts_of : forall l, Forall (element_of Texts) l -> Forall given l -> exists ts, l = map Element ts.
Proof.
  induction l as [|v l IH]; intros F G; [exists []; reflexivity|]. inversion F as [|? ? Fv Fl]; subst. inversion G as [|? ? Gv Gl]; subst.
  destruct (IH Fl Gl) as (ts & ->). destruct v as [|t|]; [contradiction Gv; reflexivity| |contradiction]. exists (t :: ts). reflexivity.
Qed.
Lemma element_flat : forall k l, Forall (element_of k) l -> Forall flat_value l.
Proof. intros k l F. eapply Forall_impl; [|exact F]. intros [| |] H; [exact Logic.I|exact Logic.I|destruct k; contradiction]. Qed.

(** Proved for the arrays without missing elements whose first element has the number 1.
    Missing: the other arrays, for which the claim does not hold. *)
Theorem C81_partial : forall flt t k l s,
  type_class t = Some k -> Forall (element_of k) l -> Forall given l -> written (Nested l) s -> same_array flt t k l s.
Proof.
  intros flt t k l s T F G W. unfold same_array, dump_array. rewrite (scan_written l s W (element_flat k l F)). cbn [bindr].
  unfold type_class in T. unfold one_of. change (fun s0 => beqb t (B s0)) with (fun s0 => beqb t (B s0)) in T. cbn [existsb] in *. cbn [map bmem existsb].
  destruct (beqb t (B"BOOLEAN[]")) eqn:E1; cbn [orb] in *; [|destruct (beqb t (B"SMALLINT[]") || _) eqn:E2; [|destruct (beqb t (B"VARCHAR[]") || _) eqn:E3; [|discriminate T]]].
  - injection T as <-. destruct (booleans_of l F G) as (bs & ->). rewrite map_map.
    rewrite (each_ok scan_bool _ (fun b => b)) by (intros [] _; reflexivity). cbn [bindr]. rewrite map_id.
    eexists _, _. split; [reflexivity|]. split; [apply json_read; apply Forall_forall; intros x Hx; apply in_map_iff in Hx as (b & <- & _); exact Logic.I|].
    rewrite map_map. apply forall2_maps. intros [] _; split; reflexivity.
  - injection T as <-. destruct (integers_of l F G) as (zs & -> & R). rewrite map_map.
    rewrite (each_ok scan_int _ (fun z => z)) by (intros z Hz; apply parse_dec; rewrite Forall_forall in R; auto). cbn [bindr]. rewrite map_id.
    eexists _, _. split; [reflexivity|]. split; [apply json_read; apply Forall_forall; intros x Hx; apply in_map_iff in Hx as (b & <- & _); exact Logic.I|].
    rewrite map_map. apply forall2_maps. intros z _; split; reflexivity.
  - injection T as <-. destruct (texts_of l F G) as (ts & ->). rewrite map_map.
    assert (beqb t (B"NUMERIC[]") || (beqb t (B"REAL[]") || (beqb t (B"DOUBLE PRECISION[]") || false)) = false) as ->.
    { repeat (apply orb_true_iff in E3 as [E3|E3]); try discriminate E3; apply beqb_eq in E3; rewrite E3; reflexivity. }
    rewrite (each_ok scan_string _ (fun z => z)) by reflexivity. cbn [bindr]. rewrite map_id.
    eexists _, _. split; [reflexivity|]. split; [apply json_read; apply Forall_forall; intros x Hx; apply in_map_iff in Hx as (b & <- & _); exact Logic.I|].
    rewrite map_map. apply forall2_maps. intros z _; split; reflexivity.
Qed.
Lemma got : forall {A C} (r : result A) (f : A -> result C) c, bindr r f = Ok c -> exists a, r = Ok a /\ f a = Ok c.
Proof. intros A C [a| |] f c E; [exists a; auto|discriminate|discriminate]. Qed.
Lemma each_missing : forall {C} (f : option bytes -> result C) l cs, (forall c, f None <> Ok c) -> In None l -> each f l = Ok cs -> False.
Proof.
  intros C f. induction l as [|x l IH]; intros cs N H E; [destruct H|]. cbn [each] in E. apply got in E as (c & E1 & E). apply got in E as (cs' & E2 & _).
  destruct H as [->|H]; [exact (N c E1)|exact (IH cs' N H E2)].
Qed.
(** Whatever elements are missing and whatever the lower bound is: if there is a field, it is right. *)
Theorem C81_never_wrong : forall flt t k l s text,
  type_class t = Some k -> Forall (element_of k) l -> written_array l s -> dump_array flt t s = Ok text -> same_array flt t k l s.
Proof.
  intros flt t k l s text T F W E. destruct W as [l s W|l s lo hi W].
  - assert (G : Forall given l \/ In Missing l).
    { clear. induction l as [|v l IH]; [left; constructor|]. destruct v as [|e|m]; [right; left; reflexivity| |].
      - destruct IH as [IH|IH]; [left; constructor; [discriminate|exact IH]|right; right; exact IH].
      - destruct IH as [IH|IH]; [left; constructor; [discriminate|exact IH]|right; right; exact IH]. }
    destruct G as [G|M]; [exact (C81_partial flt t k l s T F G W)|]. exfalso.
    unfold dump_array in E. rewrite (scan_written l s W (element_flat k l F)) in E. cbn [bindr] in E. apply (in_map elem_of) in M. cbn [elem_of] in M.
    apply got in E as (es & E & _). unfold type_class in T.
    destruct (one_of t ["BOOLEAN[]"%string]) eqn:E1.
    { apply got in E as (cs & E & _). apply (each_missing scan_bool _ _ ltac:(discriminate) M E). }
    destruct (one_of t ["SMALLINT[]"; "INT[]"; "INTEGER[]"; "BIGINT[]"]%string) eqn:E2.
    { apply got in E as (cs & E & _). apply (each_missing scan_int _ _ ltac:(discriminate) M E). }
    destruct (one_of t ["NUMERIC[]"; "REAL[]"; "DOUBLE PRECISION[]"]%string) eqn:E3.
    + unfold one_of in *. cbn [map bmem existsb] in *. rewrite E1, E2 in T. repeat (apply orb_true_iff in E3 as [E3|E3]); try discriminate E3; apply beqb_eq in E3; rewrite E3 in T; discriminate T.
    + apply got in E as (cs & E & _). apply (each_missing scan_string _ _ ltac:(discriminate) M E).
  - exfalso. unfold dump_array in E. apply got in E as (es & E & _). discriminate E.
Qed.
Print Assumptions C81_never_wrong.
Definition is_special (c : ascii) : bool :=
  existsb (ceqb c) ["{"; "}"; ","; """"; "\"; " "]%char || (9 <=? nat_of_ascii c) && (nat_of_ascii c <=? 13).
Lemma not_special : forall e, forallb (fun c => negb (is_special c)) e = true -> forall c, In c e -> ~ special c.
Proof.
  intros e H c I S. rewrite forallb_forall in H. specialize (H c I). apply negb_true_iff, orb_false_iff in H as (H1 & H2). destruct S as [S|S]; [|lia].
  assert (K : existsb (ceqb c) ["{"; "}"; ","; """"; "\"; " "]%char = true) by (apply existsb_exists; exists c; split; [exact S|apply ceqb_refl]). congruence.
Qed.
Lemma digit_not_special : forall c, is_digit c || ceqb c "-" = true -> is_special c = false /\ to_lower [c] <> B"n".
Proof. intros [[] [] [] [] [] [] [] []] H; vm_compute in H; try discriminate H; vm_compute; split; (reflexivity || discriminate). Qed.
(** Whatever the text of an array is, reading it does not crash. *)
Theorem C81_no_crash : forall flt t s, dump_array flt t s <> Panic.
Proof. exact dump_array_safe. Qed.
Lemma dec_digits : forall s acc z, dec_N_acc acc s = Some z -> Forall (fun c => is_digit c = true) s.
Proof. induction s as [|c s IH]; intros acc z H; constructor; cbn [dec_N_acc] in H; destruct (is_digit c); try discriminate; [reflexivity|exact (IH _ _ H)]. Qed.
(** An array of booleans that is dumped has no elements but t and f, and one of integers none but numbers of 64 bits. *)
Theorem C81_strict : forall flt t s text elems, dump_array flt t s = Ok text -> scan_linear s = Ok elems ->
  (t = B"BOOLEAN[]" -> Forall (fun e => e = Some (B"t") \/ e = Some (B"f")) elems)
  /\ (In t [B"SMALLINT[]"; B"INT[]"; B"INTEGER[]"; B"BIGINT[]"] ->
      Forall (fun e => exists a n, e = Some a /\ (a = n \/ a = B"-" ++ n \/ a = B"+" ++ n) /\ n <> [] /\ Forall (fun c => is_digit c = true) n) elems).
Proof.
  intros flt t s text elems E S. unfold dump_array in E. rewrite S in E. cbn [bindr] in E. apply got in E as (l & E & _). split.
  - intros ->. change (one_of (B"BOOLEAN[]") ["BOOLEAN[]"%string]) with true in E. cbn [one_of] in E. apply got in E as (cs & E & _).
    clear -E. revert cs E. induction elems as [|e elems IH]; intros cs E; constructor; cbn [each] in E; apply got in E as (c & E1 & E); apply got in E as (cs' & E2 & _).
    + destruct e as [[|a [|b r]]|]; try discriminate E1. cbn in E1. destruct (ceqb a "t") eqn:T; [left|]; [apply ceqb_eq in T; now subst|].
      destruct (ceqb a "f") eqn:F; [right|discriminate]. apply ceqb_eq in F. now subst.
    + exact (IH _ E2).
  - intros T. replace (one_of t ["BOOLEAN[]"%string]) with false in E by (destruct T as [<-|[<-|[<-|[<-|[]]]]]; reflexivity).
    replace (one_of t ["SMALLINT[]"; "INT[]"; "INTEGER[]"; "BIGINT[]"]%string) with true in E by (destruct T as [<-|[<-|[<-|[<-|[]]]]]; reflexivity).
    apply got in E as (cs & E & _). clear -E. revert cs E. induction elems as [|e elems IH]; intros cs E; constructor; cbn [each] in E; apply got in E as (c & E1 & E); apply got in E as (cs' & E2 & _).
    + unfold scan_int, parse_int in E1. assert (D : forall n z, dec_N n = Some z -> n <> [] /\ Forall (fun c => is_digit c = true) n).
      { intros n z H. destruct n as [|x n]; [discriminate|]. split; [discriminate|]. exact (dec_digits _ _ _ H). }
      destruct e as [[|x r]|]; [discriminate E1| |discriminate E1].
      destruct (ceqb x "-") eqn:M; [|destruct (ceqb x "+") eqn:Pl]; match type of E1 with match dec_N ?n with _ => _ end = _ => destruct (dec_N n) as [z|] eqn:Z; [|discriminate] end;
        apply D in Z as (Z1 & Z2).
      * apply ceqb_eq in M. subst x. exists ("-"%char :: r), r. auto 6.
      * apply ceqb_eq in Pl. subst x. exists ("+"%char :: r), r. auto 6.
      * exists (x :: r), (x :: r). auto 6.
    + exact (IH _ E2).
Qed.
Print Assumptions C81_strict.
Example C81_strict_case : dump_array (fun _ => None) (B"BOOLEAN[]") (B"{t,f}") = Ok (B"[true,false]") /\ dump_array (fun _ => None) (B"BOOLEAN[]") (B"{t,x}") = Err.
Proof. split; reflexivity. Qed.
(** The arrays of integers, texts and booleans that the code writes itself are read as they were. *)
Theorem C81_values : forall l zs bs,
  scan_linear (string_array_value l) = Ok (map Some l)
  /\ scan_linear (int_array_value zs) = Ok (map (fun z => Some (Z_dec z)) zs)
  /\ scan_linear (bool_array_value bs) = Ok (map (fun b : bool => Some (if b then B"t" else B"f")) bs).
Proof.
  assert (A : forall {D} (g : D -> bytes) (h : D -> bytes) l, (forall x, written (Element (g x)) (h x)) ->
    scan_linear (B"{" ++ join (B",") (map h l) ++ B"}") = Ok (map (fun x => Some (g x)) l)).
  { intros D g h l H. rewrite (scan_written (map (fun x => Element (g x)) l)).
    - rewrite map_map. reflexivity.
    - constructor. induction l as [|x l IH]; constructor; auto.
    - apply Forall_forall. intros v Hv. apply in_map_iff in Hv as (x & <- & _). exact Logic.I. }
  intros l zs bs. split; [|split].
  - change (map Some l) with (map (fun x : bytes => Some x) l). apply (A bytes (fun x => x)). intros x. constructor.
  - apply (A Z Z_dec). intros z. apply written_plain.
    + destruct (Z_dec_some z) as (c & r & ->). discriminate.
    + apply not_special. apply forallb_forall. intros c I. apply negb_true_iff. apply digit_not_special. destruct (dec_char z c I) as [->| ->]; reflexivity.
    + destruct (Z_dec_some z) as (c & r & E). rewrite E. destruct (equal_fold (c :: r) (B"NULL")) eqn:K; [|reflexivity]. exfalso.
      unfold equal_fold in K. apply beqb_eq in K. destruct (digit_not_special c) as (_ & N); [destruct (dec_char z c) as [->| ->]; [rewrite E; left; reflexivity|reflexivity|reflexivity]|].
      apply N. apply (f_equal (firstn 1)) in K. exact K.
  - apply (A bool (fun b => if b then B"t" else B"f")). intros [].
    + apply written_plain; [discriminate|apply not_special; reflexivity|reflexivity].
    + apply written_plain; [discriminate|apply not_special; reflexivity|reflexivity].
Qed.

(** An array with a missing element, an array that starts at 0, and an array of two
    dimensions are errors, which end the dump. *)
Definition no_text (b : bytes) : option bytes := None.
Lemma plain1 : written (Element (B"1")) (B"1").
Proof. constructor; [discriminate|apply not_special; reflexivity|reflexivity]. Qed.
Theorem C81_refuted :
  ~ C81_full
  /\ (written_array [Element (B"1"); Missing] (B"{1,NULL}") /\ dump_array no_text (B"INT[]") (B"{1,NULL}") = Err)
  /\ (written_array [Element (B"1")] (B"[0:0]={1}") /\ dump_array no_text (B"INT[]") (B"[0:0]={1}") = Err)
  /\ (written_array [Nested [Element (B"1")]; Nested [Element (B"1")]] (B"{{1},{1}}") /\ dump_array no_text (B"INT[]") (B"{{1},{1}}") = Err).
Proof.
  assert (W : written_array [Element (B"1"); Missing] (B"{1,NULL}")).
  { constructor. apply (written_nested _ [B"1"; B"NULL"]). constructor; [apply plain1|]. constructor; [constructor|constructor]. }
  split; [|split; [|split]].
  - intros H. assert (F : Forall (element_of Integers) [Element (B"1"); Missing]).
    { constructor; [exists 1%Z; split; [lia|reflexivity]|]. constructor; [exact Logic.I|constructor]. }
    destruct (H no_text (B"INT[]") Integers _ _ eq_refl F W) as (text & js & E & _). discriminate E.
  - split; [exact W|reflexivity].
  - split; [|reflexivity]. apply (written_bounds _ (B"{1}") (B"0") (B"0")). apply (written_nested _ [B"1"]). constructor; [apply plain1|constructor].
  - split; [|reflexivity]. constructor. apply (written_nested _ [B"{1}"; B"{1}"]).
    assert (N : written (Nested [Element (B"1")]) (B"{1}")) by (apply (written_nested _ [B"1"]); constructor; [apply plain1|constructor]).
    constructor; [exact N|]. constructor; [exact N|constructor].
Qed.

(** An array of texts with quotes, braces, a line end and the word NULL. *)
Example C81_case : exists s,
  written (Nested [Element (B"say ""hi"""); Element []; Element (B"null"); Element (B"{a,b}" ++ [LF] ++ B"<\>"); Element (B"plain")]) s
  /\ match dump_array no_text (B"TEXT[]") s with Ok text => read_json text | _ => None end
     = Some (JList [JString (B"say ""hi"""); JString []; JString (B"null"); JString (B"{a,b}" ++ [LF] ++ B"<\>"); JString (B"plain")]).
Proof.
  eexists. split.
  - apply written_nested. constructor; [apply written_quoted|]. constructor; [apply written_quoted|]. constructor; [apply written_quoted|].
    constructor; [apply written_quoted|]. constructor; [|constructor]. apply written_plain; [discriminate|apply not_special; reflexivity|reflexivity].
  - vm_compute. reflexivity.
Qed.
Example C81_values_case : scan_linear (string_array_value [B"a""b\"; []]) = Ok [Some (B"a""b\"); Some []] /\ scan_linear (int_array_value [-5; 7]%Z) = Ok [Some (B"-5"); Some (B"7")].
Proof. split; reflexivity. Qed.

Print Assumptions C81_partial.
Print Assumptions C81_no_crash.
Print Assumptions C81_values.
Print Assumptions C81_refuted.
