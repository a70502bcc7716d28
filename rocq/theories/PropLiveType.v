(** C88: a column of a live database is dumped with the type it has. *)
From Verif Require Import GoStr GoStrFacts ModelSq SpecSql SpecTokens SpecDdl SpecDdlText ModelCatalog ModelDdl ModelReadType SpecLiveType LiveTypeFacts.

(** From the row [r] that the script returns for the column a type is dumped that is read as the type. *)
Definition C88_postgres (c : pg_column) (r : type_cells) : Prop :=
  exists s ts, dump_type Postgres (row_of r) = Ok s /\ tokens Postgres s = Some ts /\ read_pg_type ts = Some (column_type c).
Definition C88_sqlserver (t : SpecLiveType.ms_type) (r : type_cells) : Prop :=
  exists s ts, dump_type SQLServer (row_of r) = Ok s /\ tokens SQLServer s = Some ts /\ read_ms_type ts = Some t.
(** SQLite and MySQL: the same tokens, words in any case. *)
Definition C88_text (d : dialect) (ts : toks) (r : type_cells) : Prop :=
  exists s us, dump_type d (row_of r) = Ok s /\ tokens d s = Some us /\ map up us = map up ts.
(** The text of a type: no bracket is closed only, and GENERATED ALWAYS does not belong to it. *)
Definition type_text (d : dialect) (s : bytes) (ts : toks) : Prop :=
  tokens d s = Some ts /\ (In ")"%char s -> In "("%char s) /\ has_suffix s (B" GENERATED ALWAYS") = false.
Definition C88_full : Prop :=
  (forall c r, pg_ok c -> pg_cells c r -> C88_postgres c r)
  /\ (forall table t r, SpecLiveType.ms_ok t -> ms_cells table t r -> C88_sqlserver t r)
  /\ (forall d s ts r, d = SQLite \/ d = MySQL -> type_text d s ts -> text_cells s r -> C88_text d ts r).

(** Missing: Postgres types with names that need quotes or look like those of other types, arrays of types with
    arguments, domains outside of the search path; SQL Server nchar, times with another precision than 7, and
    the types that are implemented in .NET; types with texts (MySQL enums and sets). *)
Theorem C88_partial :
  (forall c r, pg_ok c -> pg_clear c -> pg_cells c r -> C88_postgres c r)
  /\ (forall table t r, SpecLiveType.ms_ok t -> ms_clear t -> ms_cells table t r -> C88_sqlserver t r)
  /\ (forall d s ts r, d = SQLite \/ d = MySQL -> type_text d s ts -> forallb plain_token ts = true -> text_cells s r -> C88_text d ts r).
Proof.
  split; [|split].
  - exact postgres_type.
  - exact sqlserver_type.
  - intros d s ts r D (T & Br & S) P R. destruct (text_type d s ts r D T P S Br R) as (t & us & E & U & ->). exists t, (map up ts). split; [exact E|]. split; [exact U|]. apply DdlColumns.up_map.
Qed.

Definition pg_wrong (c : pg_column) (r : type_cells) : Prop := pg_ok c /\ pg_cells c r /\ ~ C88_postgres c r.
Definition ms_wrong (table : bytes) (t : SpecLiveType.ms_type) (r : type_cells) : Prop := SpecLiveType.ms_ok t /\ ms_cells table t r /\ ~ C88_sqlserver t r.
Definition of_type (s : bytes) : type_cells := TypeCells s false [] [] [] [].
Ltac pg_no :=
  split; [vm_compute; repeat split; discriminate|]; split; [vm_compute; repeat split; reflexivity|];
  let E := fresh in let T := fresh in let R := fresh in
  intros (? & ? & E & T & R); vm_compute in E; first [discriminate E|injection E as <-; vm_compute in T; first [discriminate T|injection T as <-; vm_compute in R; discriminate R]].

(** Arrays whose elements have arguments: varchar(255)[], numeric(10,2)[] and timestamp(3) with time zone[] are dumped
    as VARCHAR(255), NUMERIC(10,2) and TIMESTAMP(3). *)
Theorem C88_refuted_arrays :
  pg_wrong (OfType (PgType [B"varchar"] [B"255"] true)) (of_type (B"character varying(255)[]"))
  /\ pg_wrong (OfType (PgType [B"numeric"] [B"10"; B"2"] true)) (of_type (B"numeric(10,2)[]"))
  /\ pg_wrong (OfType (PgType [B"timestamptz"] [B"3"] true)) (of_type (B"timestamp(3) with time zone[]")).
Proof. split; [pg_no|]. split; pg_no. Qed.
(** Names that are quoted: the type "char", an enum "MyEnum" and a type "MyType" get other names; a domain
    MyDomain is written without quotes, and a domain in another schema without the schema. *)
Theorem C88_refuted_names :
  pg_wrong (OfType (PgType [B"char"] [] false)) (of_type (B"""char"""))
  /\ pg_wrong (OfEnum [B"MyEnum"]) (TypeCells (B"""MyEnum""") true [] [] [] [])
  /\ pg_wrong (OfType (PgType [B"MyType"] [] false)) (of_type (B"""MyType"""))
  /\ pg_wrong (OfDomain [B"MyDomain"] (PgType [B"int4"] [] false)) (TypeCells (B"integer") false (B"MyDomain") [] [] [])
  /\ pg_wrong (OfDomain [B"other"; B"email"] (PgType [B"text"] [] false)) (TypeCells (B"text") false (B"email") [] [] []).
Proof. do 4 (split; [pg_no|]). pg_no. Qed.
(** A type called charactervarying becomes VARCHAR; a type called a) makes the program panic. *)
Theorem C88_refuted_taken :
  pg_wrong (OfType (PgType [B"charactervarying"] [] false)) (of_type (B"charactervarying"))
  /\ (pg_ok (OfType (PgType [B"a)"] [] false)) /\ pg_cells (OfType (PgType [B"a)"] [] false)) (of_type (B"""a)""")) /\ dump_type Postgres (row_of (of_type (B"""a)"""))) = Panic).
Proof. split; [pg_no|]. split; [discriminate|]. split; [vm_compute; repeat split; reflexivity|vm_compute; reflexivity]. Qed.
(** SQL Server: NCHAR(10) loses its length, DATETIME2(3) its precision; the type of a column GEOGRAPHY of
    the table shop becomes SHOP. *)
Theorem C88_refuted_sqlserver :
  ms_wrong (B"shop") (MsType (B"nchar") [B"10"]) (TypeCells (B"nchar") false [] (B"10") (B"0") [])
  /\ ms_wrong (B"shop") (MsType (B"datetime2") [B"3"]) (TypeCells (B"datetime2") false [] [] (B"0") [])
  /\ ms_wrong (B"shop") (MsType (B"geography") []) (TypeCells (B"shop") false [] (B"-1") (B"0") []).
Proof.
  assert (G : forall t r s ts, dump_type SQLServer (row_of r) = Ok s -> tokens SQLServer s = Some ts -> read_ms_type ts <> Some t -> ~ C88_sqlserver t r).
  { intros t r s ts E T R (s' & ts' & E' & T' & R'). rewrite E in E'. injection E' as <-. rewrite T in T'. injection T' as <-. exact (R R'). }
  split; [|split].
  - split; [left; split; [vm_compute; tauto|exists (B"10"); split; [reflexivity|left; split; [discriminate|reflexivity]]]|]. split.
    + split; [reflexivity|]. split; [reflexivity|]. split; [reflexivity|]. split; [intros _ n [= <-]; reflexivity|intros _ p s E; discriminate E].
    + eapply G; [vm_compute; reflexivity|vm_compute; reflexivity|vm_compute; discriminate].
  - split; [right; right; left; split; [vm_compute; tauto|exists (B"3"); split; [reflexivity|split; [discriminate|reflexivity]]]|]. split.
    + split; [reflexivity|]. split; [reflexivity|]. split; [reflexivity|]. split; [intros I; vm_compute in I; intuition discriminate|intros _ p s E; discriminate E].
    + eapply G; [vm_compute; reflexivity|vm_compute; reflexivity|vm_compute; discriminate].
  - split; [right; right; right; split; [vm_compute; tauto|reflexivity]|]. split.
    + split; [reflexivity|]. split; [reflexivity|]. split; [reflexivity|]. split; [intros _ n E; discriminate E|intros _ p s E; discriminate E].
    + eapply G; [vm_compute; reflexivity|vm_compute; reflexivity|vm_compute; discriminate].
Qed.
(** MySQL: enum('active') becomes ENUM('ACTIVE'), with another value. *)
Theorem C88_refuted_mysql : exists ts, type_text MySQL (B"enum('active')") ts /\ text_cells (B"enum('active')") (of_type (B"enum('active')")) /\ ~ C88_text MySQL ts (of_type (B"enum('active')")).
Proof.
  eexists. split; [split; [vm_compute; reflexivity|split; [vm_compute; tauto|vm_compute; reflexivity]]|]. split; [repeat split; reflexivity|].
  intros (s & us & E & U & M). vm_compute in E. injection E as <-. vm_compute in U. injection U as <-. vm_compute in M. discriminate M.
Qed.
Theorem C88_refuted : ~ C88_full.
Proof. intros (H & _ & _). destruct C88_refuted_arrays as ((O & R & N) & _). exact (N (H _ _ O R)). Qed.

(** ** Cases *)
Example C88_example :
  C88_postgres (OfType (PgType [B"timestamptz"] [B"3"] false)) (of_type (B"timestamp(3) with time zone"))
  /\ dump_type Postgres (row_of (of_type (B"timestamp(3) with time zone"))) = Ok (B"TIMESTAMPTZ(3)")
  /\ C88_postgres (OfType (PgType [B"float8"] [] true)) (of_type (B"double precision[]"))
  /\ C88_postgres (OfType (PgType [B"public"; B"geometry"] [B"point"; B"4326"] false)) (of_type (B"public.geometry(point,4326)"))
  /\ C88_postgres (OfEnum [B"mood"]) (TypeCells (B"mood") true [] [] [] [])
  /\ C88_postgres (OfDomain [B"email"] (PgType [B"text"] [] false)) (TypeCells (B"text") false (B"email") [] [] [])
  /\ C88_sqlserver (MsType (B"nvarchar") [B"max"]) (TypeCells (B"nvarchar") false [] (B"-1") (B"0") [])
  /\ C88_sqlserver (MsType (B"decimal") [B"10"; B"2"]) (TypeCells (B"decimal") false [] [] (B"10") (B"2")).
Proof.
  destruct C88_partial as (P & S & _). split; [|split; [vm_compute; reflexivity|split; [|split; [|split; [|split; [|split]]]]]].
  - apply P; [cbn; discriminate|split; [left; discriminate|split; [reflexivity|split; [cbn; lia|discriminate]]]|repeat split; vm_compute; reflexivity].
  - apply P; [cbn; discriminate|split; [left; discriminate|split; [reflexivity|split; [cbn; lia|reflexivity]]]|repeat split; vm_compute; reflexivity].
  - apply P; [split; discriminate|split; [vm_compute; reflexivity|split; [reflexivity|split; [cbn; lia|discriminate]]]|repeat split; vm_compute; reflexivity].
  - apply P; [split; [discriminate|reflexivity]|right; split; [vm_compute; reflexivity|vm_compute; intuition discriminate]|repeat split; vm_compute; reflexivity].
  - apply P; [split; [split; [discriminate|reflexivity]|discriminate]| |repeat split; vm_compute; reflexivity].
    split; [exists (B"email"); split; [reflexivity|right; split; [vm_compute; reflexivity|vm_compute; intuition discriminate]]|].
    split; [right; split; [vm_compute; reflexivity|vm_compute; intuition discriminate]|split; [reflexivity|split; [cbn; lia|discriminate]]].
  - apply (S (B"shop")).
    + left. split; [vm_compute; tauto|]. exists (B"max"). split; [reflexivity|right; reflexivity].
    + split; [vm_compute; intuition discriminate|]. split; [discriminate|]. intros I. vm_compute in I. intuition discriminate.
    + split; [reflexivity|]. split; [reflexivity|]. split; [reflexivity|]. split; [intros _ n [= <-]; reflexivity|intros _ p s E; discriminate E].
  - apply (S (B"shop")).
    + right. left. split; [vm_compute; tauto|]. exists (B"10"), (B"2"). split; [reflexivity|]. split; split; discriminate || reflexivity.
    + split; [vm_compute; intuition discriminate|]. split; [discriminate|]. intros I. vm_compute in I. intuition discriminate.
    + split; [reflexivity|]. split; [reflexivity|]. split; [reflexivity|]. split; [intros I; vm_compute in I; intuition discriminate|intros _ p s [= <- <-]; split; reflexivity].
Qed.
Example C88_text_example : exists ts, C88_text MySQL ts (of_type (B"int unsigned")) /\ ts = [Word (B"int"); Word (B"unsigned")].
Proof.
  eexists. split; [|reflexivity]. refine (proj2 (proj2 C88_partial) MySQL (B"int unsigned") _ _ (or_intror eq_refl) _ _ _).
  - split; [vm_compute; reflexivity|]. split; [vm_compute; intuition discriminate|vm_compute; reflexivity].
  - reflexivity.
  - repeat split; reflexivity.
Qed.
Print Assumptions C88_partial.
Print Assumptions C88_refuted.
Print Assumptions C88_refuted_arrays.
Print Assumptions C88_refuted_names.
Print Assumptions C88_refuted_taken.
Print Assumptions C88_refuted_sqlserver.
Print Assumptions C88_refuted_mysql.
