(** Properties C07-C12: generated names, argument lists, column types and versions. *)
From Verif Require Import GoStr GoStrFacts ModelDdl SpecArgs DdlFacts TrimFacts NormFacts DdlWitness.
From Verif Require Import SpecTypes TypeFacts.

(** ** C07 *)
Theorem C07_length : forall k table cols, List.length (generate_name k table cols) <= 63.
Proof. exact generate_name_length. Qed.
Print Assumptions C07_length.

(** The name is a prefix of the joined name followed by the suffix; if anything was
    cut off, the name has exactly 63 bytes. *)
Theorem C07_prefix_and_suffix : forall k table cols,
  exists p r, generate_name k table cols = p ++ kind_suffix k /\ joined table cols = p ++ r
    /\ (r <> [] -> List.length (generate_name k table cols) = 63).
Proof. exact generate_name_prefix. Qed.
Print Assumptions C07_prefix_and_suffix.

Theorem C07_fits : forall k table cols,
  List.length (joined table cols) + List.length (kind_suffix k) <= 63 ->
  generate_name k table cols = joined table cols ++ kind_suffix k.
Proof. exact generate_name_fits. Qed.
Print Assumptions C07_fits.

Example C07_suffixes :
  map kind_suffix [PKey; FKey; UniqueKey; IndexKind; CheckKind; ExcludeKind]
  = map B ["_pkey"; "_fkey"; "_key"; "_idx"; "_check"; "_excl"]%string.
Proof. reflexivity. Qed.
Example C07_example : generate_name FKey (B"film actor") (map B ["film_id"; "actor_id"]%string)
  = B"film_actor_film_id_actor_id_fkey".
Proof. vm_compute. reflexivity. Qed.
Example C07_example_cut :
  generate_name PKey (List.repeat "x"%char 100) [] = List.repeat "x"%char 58 ++ B"_pkey".
Proof. vm_compute. reflexivity. Qed.

(** ** C08 *)
Theorem C08_refuted_separator : exists k t c1 c2,
  generate_name k t c1 = generate_name k t c2 /\ c1 <> c2.
Proof. exists UniqueKey, (B"a"), (map B ["b_c"]%string), (map B ["b"; "c"]%string). exact collision_separator. Qed.
Print Assumptions C08_refuted_separator.

Theorem C08_refuted_truncation : exists k t c1 c2, c1 <> c2 /\ generate_name k t [c1] = generate_name k t [c2].
Proof.
  exists IndexKind, (List.repeat "a"%char 70), (B"x"), (B"y"). split; [discriminate|exact collision_long].
Qed.
Print Assumptions C08_refuted_truncation.

Theorem C08_injective_partial : forall k1 (t1 : bytes) (c1 : list bytes) k2 (t2 : bytes) (c2 : list bytes),
  k1 <> OtherKind -> k2 <> OtherKind ->
  Forall (fun w : bytes => ~ In underscore w /\ ~ In SPACE w) (t1 :: c1) ->
  Forall (fun w : bytes => ~ In underscore w /\ ~ In SPACE w) (t2 :: c2) ->
  List.length (joined t1 c1) <= 57 -> List.length (joined t2 c2) <= 57 ->
  generate_name k1 t1 c1 = generate_name k2 t2 c2 -> k1 = k2 /\ t1 = t2 /\ c1 = c2.
Proof. exact generate_name_inj. Qed.
Print Assumptions C08_injective_partial.

Example C08_example :
  generate_name UniqueKey (B"film") (map B ["title"; "year"]%string)
  <> generate_name UniqueKey (B"film") (map B ["year"; "title"]%string).
Proof. vm_compute. discriminate. Qed.

(** ** C09 *)
Theorem C09_lossless : forall s, join (B",") (split_args s) = s.
Proof. exact split_args_join. Qed.
Print Assumptions C09_lossless.

(** A single argument of the full grammar, in which a comma occurs only inside
    brackets, is cut; two arguments are not separated. *)
Theorem C09_refuted : exists s, full_argument s /\ 1 < List.length (split_args s).
Proof. exact split_args_cuts_literal. Qed.
Print Assumptions C09_refuted.

Theorem C09_refuted_merge :
  exists a b, full_argument a /\ full_argument b /\ split_args (a ++ B"," ++ b) = [a ++ B"," ++ b].
Proof. exact split_args_joins_arguments. Qed.
Print Assumptions C09_refuted_merge.

(** The cuts are exactly the top-level commas when no string literal occurs inside
    brackets. *)
Theorem C09_exact_partial : forall l,
  l <> [] -> Forall argument l -> join (B",") l <> [] -> split_args (join (B",") l) = l.
Proof. exact split_args_exact. Qed.
Print Assumptions C09_exact_partial.

Example C09_example :
  split_args (B"a,(b,c),'d,''e',f[1,g[2,3]],h(i,(j,k))")
  = map B ["a"; "(b,c)"; "'d,''e'"; "f[1,g[2,3]]"; "h(i,(j,k))"]%string.
Proof. vm_compute. reflexivity. Qed.
Example C09_example_hyp : argument (B"f(a,(b,c))").
Proof.
  apply (a_char "f"%char); try discriminate.
  apply (a_paren (B"a,(b,c)") []); [|constructor].
  apply (g_char _ _ "a"%char); try discriminate. apply (g_char _ _ ","%char); try discriminate.
  apply (g_nest _ _ (B"b,c") []); [|constructor].
  do 3 (apply g_char; try discriminate). constructor.
Qed.

(** ** C10 *)
Theorem C10_refuted : forall d, normalize_column_type d (B"INT)") = Panic.
Proof. exact type_panics. Qed.
Print Assumptions C10_refuted.

(** The exact set of type texts that crash the comparison. *)
Theorem C10_panic_iff : forall d s,
  normalize_column_type d s = Panic <-> ~ In "("%char s /\ In ")"%char s.
Proof. exact normalize_type_panic. Qed.
Print Assumptions C10_panic_iff.

Theorem C10_total_partial : forall d s,
  ~ (~ In "("%char s /\ In ")"%char s) -> exists r, normalize_column_type d s = Ok r.
Proof. exact normalize_type_total. Qed.
Print Assumptions C10_total_partial.

Example C10_example :
  normalize_column_type Postgres (B" timestamp (6) with time zone") = Ok (B"TIMESTAMPTZ", B"6", [])
  /\ normalize_column_type MySQL (B"int(") = Ok (B"INT(", [], []).
Proof. split; vm_compute; reflexivity. Qed.

(** ** C11 *)
Theorem C11_refuted_type_mysql :
  exists s t t', normalize_column_type MySQL s = Ok (t, [], []) /\
    normalize_column_type MySQL t = Ok (t', [], []) /\ t <> t'.
Proof. exact type_unstable_mysql. Qed.
Print Assumptions C11_refuted_type_mysql.

Theorem C11_refuted_type_panic : forall d,
  exists s t a1, normalize_column_type d s = Ok (t, a1, []) /\ normalize_column_type d t = Panic.
Proof. exact type_unstable_panic. Qed.
Print Assumptions C11_refuted_type_panic.

Theorem C11_refuted_default :
  exists s, normalize_column_default Postgres (normalize_column_default Postgres s)
            <> normalize_column_default Postgres s.
Proof. exact default_unstable_postgres. Qed.
Print Assumptions C11_refuted_default.

Theorem C11_type_stable_partial : forall d s t a1 a2,
  normalize_column_type d s = Ok (t, a1, a2) ->
  ~ In ")"%char t ->
  (d = MySQL -> contains (to_upper s) (B" SIGNED") = false) ->
  normalize_column_type d (render t a1 a2) = Ok (t, a1, a2).
Proof. exact normalize_type_stable. Qed.
Print Assumptions C11_type_stable_partial.

Theorem C11_default_stable_partial : forall d s,
  (d = Postgres -> contains s (B"::") = false) ->
  normalize_column_default d (normalize_column_default d s) = normalize_column_default d s.
Proof. exact normalize_default_stable. Qed.
Print Assumptions C11_default_stable_partial.

Example C11_example :
  normalize_column_type Postgres (B"character varying ( 255 )") = Ok (B"VARCHAR", B"255", [])
  /\ normalize_column_type Postgres (render (B"VARCHAR") (B"255") []) = Ok (B"VARCHAR", B"255", [])
  /\ normalize_column_type MySQL (B"bigint(20) unsigned") = Ok (B"BIGINT", [], [])
  /\ normalize_column_type MySQL (B"integer unsigned") = Ok (B"INT UNSIGNED", [], [])
  /\ normalize_column_default MySQL (B"now()") = B"CURRENT_TIMESTAMP"
  /\ normalize_column_default Postgres (B"'abc'::text") = B"'abc'".
Proof. repeat split; vm_compute; reflexivity. Qed.

(** ** C12 *)
Theorem C12_lexicographic : forall v nums, lower_than v nums = true <->
  exists p x y v' w', v = p ++ x :: v' /\ nums = p ++ y :: w' /\ (x < y)%Z.
Proof. exact lower_than_spec. Qed.
Print Assumptions C12_lexicographic.

Theorem C12_complementary : forall v nums, greater_or_equal_to v nums = negb (lower_than v nums).
Proof. exact version_complement. Qed.
Print Assumptions C12_complementary.

Theorem C12_irreflexive : forall v, lower_than v v = false.
Proof. exact lower_than_irrefl. Qed.
Print Assumptions C12_irreflexive.

Theorem C12_transitive : forall a b c,
  lower_than a b = true -> lower_than b c = true -> lower_than a c = true.
Proof. exact lower_than_trans. Qed.
Print Assumptions C12_transitive.

Theorem C12_total : forall a b, List.length a = List.length b ->
  a = b \/ lower_than a b = true \/ lower_than b a = true.
Proof. exact lower_than_total. Qed.
Print Assumptions C12_total.

Theorem C12_monotone : forall v v' nums,
  Forall2 Z.le v v' -> lower_than v' nums = true -> lower_than v nums = true.
Proof. exact lower_than_mono. Qed.
Print Assumptions C12_monotone.

Theorem C12_single_number : forall x v n, lower_than (x :: v) [n] = (x <? n)%Z.
Proof. exact lower_than_major. Qed.
Print Assumptions C12_single_number.

Example C12_example : lower_than [8; 0; 12]%Z [8; 0; 19]%Z = true
  /\ lower_than [10; 2]%Z [9]%Z = false /\ greater_or_equal_to [12]%Z [12]%Z = true.
Proof. repeat split; reflexivity. Qed.

(** ** Brackets around expressions (defaults, generated columns, predicates). *)
Theorem C11_brackets_stable : forall s,
  wrap_brackets (wrap_brackets s) = wrap_brackets s
  /\ (wrapped_in_brackets s = false -> unwrap_brackets (wrap_brackets s) = s).
Proof. exact (fun s => conj (wrap_idem s) (unwrap_wrap s)). Qed.
Print Assumptions C11_brackets_stable.

(** Removing brackets can turn a balanced expression into an unbalanced one,
    because the first and the last bracket need not belong together. *)
Theorem C11_refuted_brackets :
  exists s, full_argument s /\ ~ full_argument (unwrap_brackets s).
Proof. exact unwrap_unbalances. Qed.
Print Assumptions C11_refuted_brackets.

(** ** C51 *)
(** Two spellings of one type compare equal, in any letter case. *)
Theorem C51_spellings_equal : forall d c s1 s2,
  In c (spellings d) -> In (type_text s1) c -> In (type_text s2) c ->
  normalize_column_type d s1 = normalize_column_type d s2.
Proof. exact spellings_equal. Qed.
Print Assumptions C51_spellings_equal.

(** Two type names without arguments compare equal only if they are the same name or
    synonyms. *)
Theorem C51_only_synonyms : forall d s1 s2,
  bare d s1 -> bare d s2 ->
  normalize_column_type d s1 = normalize_column_type d s2 ->
  type_text s1 = type_text s2 \/ synonyms d (type_text s1) (type_text s2).
Proof. exact equal_types_are_synonyms. Qed.
Print Assumptions C51_only_synonyms.

(** With arguments this fails: the text after the arguments is dropped. *)
Theorem C51_refuted_suffix :
  normalize_column_type Postgres (B"VARCHAR(255)[]") = normalize_column_type Postgres (B"VARCHAR(255)")
  /\ normalize_column_type MySQL (B"DECIMAL(10,2) UNSIGNED") = normalize_column_type MySQL (B"DECIMAL(10,2)").
Proof. exact type_loses_array. Qed.
Print Assumptions C51_refuted_suffix.

Example C51_example :
  In (type_text (B" character varying")) (map B ["VARCHAR"; "CHARACTER VARYING"]%string)
  /\ bare Postgres (B"double precision") /\ ~ synonyms Postgres (B"INT") (B"BIGINT").
Proof.
  split; [right; left; reflexivity|]. split.
  - repeat split; try discriminate; vm_compute; intuition discriminate.
  - intros (c & Hc & H1 & H2). vm_compute in Hc.
    repeat (destruct Hc as [<-|Hc]; [vm_compute in H1, H2; intuition discriminate|]). exact Hc.
Qed.
