(** Independent specification: type names that mean the same type in each database
    system (taken from the documentation of the systems; names are in upper case and
    without spaces). *)
From Verif Require Import GoStr.

Definition type_classes (d : dialect) : list (list bytes) :=
  match d with
  | Postgres =>
      map (map B)
        [ ["INT"; "INTEGER"; "INT4"; "SERIAL"; "SERIAL4"];
          ["BIGINT"; "INT8"; "BIGSERIAL"; "SERIAL8"];
          ["SMALLINT"; "INT2"; "SMALLSERIAL"; "SERIAL2"];
          ["NUMERIC"; "DECIMAL"];
          ["REAL"; "FLOAT4"];
          ["DOUBLEPRECISION"; "FLOAT8"];
          ["VARCHAR"; "CHARACTERVARYING"];
          ["CHAR"; "CHARACTER"];
          ["TIMESTAMP"; "TIMESTAMPWITHOUTTIMEZONE"];
          ["TIMESTAMPTZ"; "TIMESTAMPWITHTIMEZONE"];
          ["TIME"; "TIMEWITHOUTTIMEZONE"];
          ["TIMETZ"; "TIMEWITHTIMEZONE"];
          ["VARBIT"; "BITVARYING"];
          ["BOOLEAN"; "BOOL"] ]%string
  | MySQL =>
      map (map B)
        [ ["INT"; "INTEGER"]; ["NUMERIC"; "DEC"; "DECIMAL"]; ["BOOL"; "BOOLEAN"] ]%string
  | SQLServer =>
      map (map B)
        [ ["VARBINARY"; "BINARYVARYING"]; ["INT"; "INTEGER"];
          ["NVARCHAR"; "NATIONALCHARACTERVARYING"]; ["VARCHAR"; "CHARACTERVARYING"];
          ["CHAR"; "CHARACTER"]; ["NUMERIC"; "DEC"; "DECIMAL"] ]%string
  | _ => []
  end.

(** The text of a type name without surrounding white space, in upper case. *)
Definition type_text (s : bytes) : bytes := to_upper (trim_space s).
Definition squeeze (s : bytes) : bytes := filter (fun c => negb (ceqb c SPACE)) s.

(** [a] and [b] are names of the same type. *)
Definition synonyms (d : dialect) (a b : bytes) : Prop :=
  exists c, In c (type_classes d) /\ In (squeeze a) c /\ In (squeeze b) c.

(** A bare type name: no arguments, not an array, no MySQL sign. *)
Definition bare (d : dialect) (s : bytes) : Prop :=
  ~ In "("%char s /\ ~ In ")"%char s /\ ~ In "["%char s
  /\ (d = MySQL -> contains (to_upper s) (B"SIGNED") = false).

(** Usual spellings of the same type. *)
Definition spellings (d : dialect) : list (list bytes) :=
  match d with
  | Postgres =>
      map (map B)
        [ ["INT"; "INTEGER"; "INT4"; "SERIAL"; "SERIAL4"];
          ["BIGINT"; "INT8"; "BIGSERIAL"; "SERIAL8"];
          ["SMALLINT"; "INT2"; "SMALLSERIAL"; "SERIAL2"];
          ["NUMERIC"; "DECIMAL"];
          ["NUMERIC(10,2)"; "DECIMAL(10, 2)"; "DECIMAL (10,2)"];
          ["REAL"; "FLOAT4"];
          ["DOUBLE PRECISION"; "FLOAT8"];
          ["VARCHAR"; "CHARACTER VARYING"];
          ["VARCHAR(255)"; "CHARACTER VARYING(255)"];
          ["CHAR"; "CHARACTER"];
          ["TIMESTAMP"; "TIMESTAMP WITHOUT TIME ZONE"];
          ["TIMESTAMPTZ"; "TIMESTAMP WITH TIME ZONE"];
          ["TIMESTAMPTZ(6)"; "TIMESTAMP(6) WITH TIME ZONE"];
          ["TIMESTAMP(6)"; "TIMESTAMP(6) WITHOUT TIME ZONE"];
          ["TIME"; "TIME WITHOUT TIME ZONE"];
          ["TIMETZ"; "TIME WITH TIME ZONE"];
          ["TIMETZ(3)"; "TIME(3) WITH TIME ZONE"];
          ["VARBIT"; "BIT VARYING"];
          ["BOOLEAN"; "BOOL"];
          ["INT[]"; "INTEGER[]"; "INT4[]"];
          ["TEXT"] ]%string
  | MySQL =>
      map (map B)
        [ ["INT"; "INTEGER"; "INT(11)"; "INT SIGNED"]; ["NUMERIC"; "DEC"; "DECIMAL"];
          ["NUMERIC(10,2)"; "DECIMAL(10,2)"; "DEC(10, 2)"];
          ["TINYINT(1)"; "BOOL"; "BOOLEAN"];
          ["INT UNSIGNED"; "INTEGER UNSIGNED"]; ["BIGINT"; "BIGINT(20)"]; ["SMALLINT"; "SMALLINT(6)"];
          ["TINYINT"; "TINYINT(4)"]; ["MEDIUMINT"; "MEDIUMINT(9)"] ]%string
  | SQLServer =>
      map (map B)
        [ ["VARBINARY"; "BINARY VARYING"]; ["INT"; "INTEGER"];
          ["NVARCHAR(255)"; "NATIONAL CHARACTER VARYING(255)"]; ["VARCHAR(255)"; "CHARACTER VARYING(255)"];
          ["CHAR(3)"; "CHARACTER(3)"]; ["NUMERIC"; "DEC"; "DECIMAL"] ]%string
  | _ => []
  end.
