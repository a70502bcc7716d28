(** Properties C01-C06: quoting, literals and parameter substitution. *)
From Verif Require Import GoStr GoStrFacts Keywords ModelSq SpecSql SpecSprintf.
From Verif Require Import SqFacts SprintFacts SprintfFacts SqWitness.

(** ** C01 *)
(** Whatever follows, the lexer reads the printed identifier as exactly one
    identifier token. *)
Theorem C01_identifier_is_one_token : forall d s rest,
  delimited rest ->
  exists name, lex_ident d (quote_identifier d s ++ rest) = Some (name, rest).
Proof. exact one_token. Qed.
Print Assumptions C01_identifier_is_one_token.

Example C01_example :
  lex_ident Postgres (quote_identifier Postgres (B"x""; DROP TABLE t; --") ++ B" (id)")
  = Some (B"x""; DROP TABLE t; --", B" (id)").
Proof. vm_compute. reflexivity. Qed.
Example C01_example_reserved :
  quote_identifier MySQL (B"select") = B"`select`" /\
  lex_ident MySQL (B"select") = None.
Proof. split; vm_compute; reflexivity. Qed.

(** ** C02 *)
(** Two different names can be printed as the same text, and a printed name can
    denote another name. *)
Theorem C02_refuted :
  exists d s1 s2, s1 <> s2 /\ quote_identifier d s1 = quote_identifier d s2
    /\ lex_ident d (quote_identifier d s1) = Some (s2, []).
Proof. exact quote_not_injective. Qed.
Print Assumptions C02_refuted.

(** On Postgres the five pseudo-table names (EXCLUDED, NEW, ...) are printed
    unquoted and fold to lower case. *)
Theorem C02_refuted_special :
  exists s, lex_ident Postgres (quote_identifier Postgres s) = Some (to_lower s, []) /\ to_lower s <> s.
Proof. exact special_folds. Qed.
Print Assumptions C02_refuted_special.

(** Every other name denotes itself if and only if it contains no doubled closing
    quote followed by a further byte. *)
Theorem C02_denotes_name_partial : forall d s rest,
  delimited rest ->
  ~ In s (map B ["EXCLUDED"; "INSERTED"; "DELETED"; "NEW"; "OLD"]%string) ->
  lex_ident d (quote_identifier d s ++ rest) = Some (s, rest)
  <-> ~ (exists a c b, s = a ++ id_close d :: id_close d :: c :: b).
Proof. exact denotes_name. Qed.
Print Assumptions C02_denotes_name_partial.

(** Names that denote themselves are printed differently when they differ. *)
Theorem C02_injective_partial : forall d s1 s2,
  lex_ident d (quote_identifier d s1) = Some (s1, []) ->
  lex_ident d (quote_identifier d s2) = Some (s2, []) ->
  quote_identifier d s1 = quote_identifier d s2 -> s1 = s2.
Proof. exact quote_injective. Qed.
Print Assumptions C02_injective_partial.

Example C02_example :
  lex_ident SQLServer (quote_identifier SQLServer (B"a]b") ++ B", c") = Some (B"a]b", B", c").
Proof. vm_compute. reflexivity. Qed.

(** ** C03 *)
(** Text that ends a string expression. *)
Theorem C03_string_literal : forall d s rest,
  d = SQLite \/ d = Postgres \/ d = Other ->
  hd_error rest <> Some "'"%char -> strip_prefix (B" || ") rest = None ->
  eval_string d (sprint_string d s ++ rest) = Some (s, rest).
Proof. exact string_infix. Qed.
Print Assumptions C03_string_literal.

Example C03_example :
  sprint_string Postgres (B"it's" ++ [LF]) = B"'it''s' || CHR(10)" /\
  eval_string Postgres (B"'it''s' || CHR(10)" ++ B", 2") = Some (B"it's" ++ [LF], B", 2").
Proof. split; vm_compute; reflexivity. Qed.

(** MySQL interprets backslashes in string literals; they are not escaped, so the
    value changes, and a trailing backslash leaves the literal open. *)
Theorem C03_refuted_mysql :
  (exists s s', s' <> s /\ eval_string MySQL (sprint_string MySQL s) = Some (s', [])) /\
  (exists s, eval_string MySQL (sprint_string MySQL s) = None).
Proof. exact mysql_backslash. Qed.
Print Assumptions C03_refuted_mysql.

(** A crafted string can end the literal early on MySQL: what follows is read as
    SQL. *)
Theorem C03_refuted_mysql_injection :
  exists s v tail, eval_string MySQL (sprint_string MySQL s) = Some (v, tail) /\ tail <> [].
Proof. exact mysql_injection. Qed.
Print Assumptions C03_refuted_mysql_injection.

Theorem C03_mysql_partial : forall s rest,
  ~ In backslash s -> hd_error rest <> Some "'"%char ->
  eval_string MySQL (sprint_string MySQL s ++ rest) = Some (s, rest).
Proof. exact string_mysql. Qed.
Print Assumptions C03_mysql_partial.

(** SQL Server: CONCAT needs at least two arguments, and takes at most 254. *)
Theorem C03_refuted_sqlserver :
  exists s, eval_string SQLServer (sprint_string SQLServer s) = None.
Proof. exact sqlserver_concat. Qed.
Print Assumptions C03_refuted_sqlserver.

Theorem C03_sqlserver_partial : forall s rest,
  s <> [LF] -> s <> [CR] ->
  List.length (filter (fun c => ceqb c CR || ceqb c LF) s) <= 126 ->
  hd_error rest <> Some "'"%char ->
  eval_string SQLServer (sprint_string SQLServer s ++ rest) = Some (s, rest).
Proof. exact string_sqlserver. Qed.
Print Assumptions C03_sqlserver_partial.

(** ** C04 *)
Theorem C04_bytes : forall d s t, sprint d (VBytes s) = Ok t -> eval_bytes d t = Some s.
Proof. exact eval_bytes_sprint. Qed.
Print Assumptions C04_bytes.

Theorem C04_int : forall d z t, sprint d (VInt z) = Ok t -> eval_int t = Some z.
Proof. exact eval_int_sprint. Qed.
Print Assumptions C04_int.

Theorem C04_bool : forall d b t, sprint d (VBool b) = Ok t -> eval_bool d t = Some b.
Proof. exact eval_bool_sprint. Qed.
Print Assumptions C04_bool.

(** nil is NULL, no other of these values is, and none of them is an error. *)
Theorem C04_total : forall d v,
  (forall r, v <> VLib r) ->
  exists t, sprint d v = Ok t /\ (t = B"NULL" <-> v = VNil).
Proof. exact sprint_total. Qed.
Print Assumptions C04_total.

Example C04_example :
  sprint Postgres (VBytes (B"A'")) = Ok (B"'\x4127'") /\ sprint MySQL (VInt (-120)) = Ok (B"-120").
Proof. split; vm_compute; reflexivity. Qed.

(** ** C05 *)
(** A marker directly followed by a string literal is written after it. *)
Theorem C05_refuted :
  exists d q args out,
    sprintf d q args = Ok out /\
    toks d q [TMarker (B"?"); TQuoted (B"'x'")] /\
    out = B"'x'5".
Proof. exact sprintf_swaps. Qed.
Print Assumptions C05_refuted.

(** A marker directly followed by another marker: the second is not replaced. *)
Theorem C05_refuted_adjacent :
  exists d q args,
    toks d q [TMarker (B"$1"); TMarker (B"$2")] /\
    subst_tokens d (text d) (pairs args) 0 [TMarker (B"$1"); TMarker (B"$2")] = Some (B"78") /\
    sprintf d q args = Ok (B"7$2").
Proof. exact sprintf_adjacent. Qed.
Print Assumptions C05_refuted_adjacent.

(** When no marker is directly followed by a quoted token or a marker, the result
    is the query with each marker replaced by its argument and everything else
    copied unchanged, in order. *)
Theorem C05_substitution_partial : forall d q args ts out,
  args <> [] -> toks d q ts -> separated d ts ->
  sprintf d q args = Ok out <-> subst_tokens d (text d) (pairs args) 0 ts = Some out.
Proof. exact sprintf_tokens. Qed.
Print Assumptions C05_substitution_partial.

(** Every accepted query has such a token structure (all quotes are closed). *)
Theorem C05_accepted_is_tokenized : forall d q args out,
  args <> [] -> sprintf d q args = Ok out -> exists ts, toks d q ts.
Proof. exact sprintf_toks. Qed.
Print Assumptions C05_accepted_is_tokenized.

Theorem C05_no_arguments : forall d q, sprintf d q [] = Ok q.
Proof. exact sprintf_no_args. Qed.
Print Assumptions C05_no_arguments.

Example C05_example :
  let args := [{| arg_name := None; arg_val := VString (B"it's") |};
               {| arg_name := Some (B"n"); arg_val := VInt 7 |}] in
  let ts := [TQuoted (B"'?'"); TOther SPACE; TMarker (B"?"); TOther SPACE; TMarker (B":n")] in
  toks SQLite (B"'?' ? :n") ts /\ separated SQLite ts /\
  sprintf SQLite (B"'?' ? :n") args = Ok (B"'?' 'it''s' 7").
Proof. exact sprintf_example. Qed.

(** ** C06 *)
Theorem C06_refuted : exists q args, sprintf SQLite q args = Panic.
Proof. exact sprintf_panics. Qed.
Print Assumptions C06_refuted.

(** Never outside SQLite, and on SQLite not when there are at least as many
    arguments as question marks (or no arguments). *)
Theorem C06_no_panic_partial : forall d q args,
  (d = SQLite -> args = [] \/ List.length (filter (ceqb "?"%char) q) <= List.length args) ->
  sprintf d q args <> Panic.
Proof. exact sprintf_no_panic. Qed.
Print Assumptions C06_no_panic_partial.

Example C06_example :
  sprintf SQLServer (B"@p1 ? ?") [{| arg_name := None; arg_val := VInt 1 |}] = Err.
Proof. vm_compute. reflexivity. Qed.
