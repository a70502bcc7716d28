(** C87: the default of a column of a live database is dumped as the default it is. *)
From Verif Require Import GoStr ModelSq SpecSql SpecTokens SpecDdl ModelDiffSql SpecDdlText ModelReadDefault SpecDefault DefaultFacts.

(** What is read from the database and written after DEFAULT gives the default that the column has.
    [flt] stands for strconv.ParseFloat. *)
Definition C87_claim (flt : bytes -> bool) (d : dialect) (g : given) : Prop := gives d (read_default flt d (report d g)) g.
Definition C87_full : Prop := forall flt d g, d <> Other -> given_ok d g -> C87_claim flt d g.

(** Missing: expressions that begin and end with brackets or quotes that do not belong together, expressions of
    Postgres with AND etc. outside of brackets, numbers that are no decimals; MySQL: most
    expressions, and values that are empty, look like a word, a number with zeros, a string or an expression,
    or contain a backslash or two quotes. *)
Theorem C87_partial : forall flt d g, d <> Other -> given_ok d g -> clear_default flt d g -> C87_claim flt d g.
Proof.
  intros flt d g D O C. unfold C87_claim. destruct d.
  - exact (read_sqlite flt g O C).
  - exact (read_postgres flt g O C).
  - exact (read_mysql flt g O C).
  - exact (read_sqlserver flt g O C).
  - congruence.
Qed.

Definition wrong (flt : bytes -> bool) (d : dialect) (g : given) : Prop := given_ok d g /\ ~ C87_claim flt d g.
Ltac solve_ok := first [reflexivity|eexists; split; [vm_compute; reflexivity|split; [discriminate|reflexivity]]].
Ltac solve_not :=
  unfold C87_claim; vm_compute read_default;
  repeat match goal with |- context [if ?f ?x then _ else _] => is_var f; destruct (f x) end;
  first [ discriminate
        | let T := fresh "T" in let C := fresh "C" in let S := fresh "S" in
          intros (? & ? & T & C & S); vm_compute in T; first [discriminate T|injection T as <-; vm_compute in C; first [discriminate C|injection C as <-; vm_compute in S; first [contradiction|discriminate S]]] ].
Ltac solve_wrong := split; [solve_ok|solve_not].

(** DEFAULT ('a' || 'b') is dumped as DEFAULT 'a' || 'b', and DEFAULT ((1)+(2)) as DEFAULT (1)+(2), which are
    syntax errors in SQLite. *)
Theorem C87_refuted_sqlite : forall flt,
  wrong flt SQLite (GivenFormula (B"'a' || 'b'")) /\ wrong flt SQLite (GivenFormula (B"(1)+(2)")).
Proof. intros flt. split; solve_wrong. Qed.
(** SQL Server: DEFAULT ('a')+('b') and ((1))+((2)). *)
Theorem C87_refuted_sqlserver : forall flt,
  wrong flt SQLServer (GivenFormula (B"('a')+('b')")) /\ wrong flt SQLServer (GivenFormula (B"((1))+((2))")).
Proof. intros flt. split; solve_wrong. Qed.
(** Postgres: b BOOLEAN DEFAULT (1 < 2 AND true) is dumped without the brackets, which is a syntax error. *)
Theorem C87_refuted_postgres : forall flt, wrong flt Postgres (GivenFormula (B"1 < 2 AND true")).
Proof. intros flt. solve_wrong. Qed.
(** MySQL: DEFAULT '' is lost; the texts NULL, TRUE, 'x' (with quotes) and (x) become something else, two
    quotes become one, a backslash makes an invalid statement. *)
Theorem C87_refuted_values : forall flt,
  wrong flt MySQL (GivenValue []) /\ wrong flt MySQL (GivenValue (B"null")) /\ wrong flt MySQL (GivenValue (B"true"))
  /\ wrong flt MySQL (GivenValue (B"'x'")) /\ wrong flt MySQL (GivenValue (B"(x)"))
  /\ wrong flt MySQL (GivenValue (B"a''b")) /\ wrong flt MySQL (GivenValue (B"\")).
Proof. intros flt. do 6 (split; [solve_wrong|]). solve_wrong. Qed.
(** MySQL: expressions become texts. *)
Theorem C87_refuted_expressions : forall flt,
  wrong flt MySQL (GivenFormula (B"uuid()")) /\ wrong flt MySQL (GivenFormula (B"CURRENT_TIMESTAMP(6)"))
  /\ wrong flt MySQL (GivenFormula (B"(1 + 2) * (3 + 4)")).
Proof. intros flt. do 2 (split; [solve_wrong|]). solve_wrong. Qed.
(** MySQL: the text 00501 becomes the number 501, and nan a word. *)
Theorem C87_refuted_numbers : forall flt,
  (flt (B"00501") = true -> wrong flt MySQL (GivenValue (B"00501")))
  /\ (flt (B"nan") = true -> wrong flt MySQL (GivenValue (B"nan"))).
Proof.
  intros flt. split; intros F; (split; [reflexivity|]); unfold C87_claim, read_default, report; unfold is_literal;
    rewrite F, orb_true_r; cbn [orb]; (intros (ts & v & T & C & S); vm_compute in T; injection T as <-; vm_compute in C; first [discriminate C|injection C as <-; vm_compute in S; discriminate S]).
Qed.
Theorem C87_refuted : ~ C87_full.
Proof.
  intros H. destruct (C87_refuted_sqlite (fun _ => false)) as ((O & W) & _). apply W. apply H; [discriminate|exact O].
Qed.

(** ** Examples *)
Definition no_float (s : bytes) : bool := false.
Definition reads (d : dialect) (g : given) : bytes := read_default no_float d (report d g).
Example C87_example :
  reads SQLite (GivenFormula (B"'it''s'")) = B"'it''s'" /\ reads SQLite (GivenFormula (B"strftime('%s', 'now')")) = B"(strftime('%s', 'now'))"
  /\ reads Postgres (GivenFormula (B"'a'::text")) = B"'a'::text"
  /\ reads MySQL (GivenValue (B"it's")) = B"'it''s'" /\ reads MySQL (GivenFormula (B"(1 + 2)")) = B"(1 + 2)"
  /\ reads SQLServer (GivenFormula (B"(5)")) = B"(5)" /\ reads SQLServer (GivenFormula (B"getdate()")) = B"(getdate())"
  /\ reads SQLServer (GivenFormula (B"'x'")) = B"'x'".
Proof. vm_compute. repeat split. Qed.
Ltac no_such := let e := fresh in let E := fresh in intros e E; apply (f_equal (@hd_error ascii)) in E; discriminate E.
Example C87_example_hyp :
  given_ok SQLite (GivenFormula (B"strftime('%s', 'now')")) /\ clear_default no_float SQLite (GivenFormula (B"strftime('%s', 'now')"))
  /\ given_ok Postgres (GivenFormula (B"'a'::text")) /\ clear_default no_float Postgres (GivenFormula (B"'a'::text"))
  /\ given_ok MySQL (GivenValue (B"it's")) /\ clear_default no_float MySQL (GivenValue (B"it's"))
  /\ given_ok SQLServer (GivenFormula (B"getdate()")) /\ clear_default no_float SQLServer (GivenFormula (B"getdate()")).
Proof.
  split; [solve_ok|]. split; [split; [no_such|split; [no_such|discriminate]]|].
  split; [solve_ok|]. split; [reflexivity|].
  split; [solve_ok|]. split.
  { split; [discriminate|]. split; [vm_compute; intuition discriminate|]. split; [reflexivity|]. split; [no_such|]. split.
    { intros a b E. repeat (destruct a as [|? a]; [discriminate E|injection E as _ E]). destruct a; discriminate E. }
    split; [|discriminate]. intros w I. vm_compute in I. repeat destruct I as [<-|I]; try contradiction; reflexivity. }
  split; [solve_ok|]. no_such.
Qed.
Print Assumptions C87_partial.
Print Assumptions C87_refuted.
Print Assumptions C87_refuted_values.
