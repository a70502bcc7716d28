(** Independent specification of how the databases read SQL text: identifiers,
    string literals, concatenations and simple constants.  Nothing here refers to
    the model of the Go code. *)
From Verif Require Import GoStr.

(** ** Quoted tokens *)
(** Text after an opening quote: up to the first closing quote that is not
    doubled; a doubled closing quote stands for one. Returns the decoded text and
    the text after the token. *)
Fixpoint lex_quoted (close : ascii) (s : bytes) : option (bytes * bytes) :=
  match s with
  | [] => None
  | c :: s' =>
      if ceqb c close then
        match s' with
        | c' :: s'' =>
            if ceqb c' close then
              match lex_quoted close s'' with
              | Some (v, r) => Some (close :: v, r)
              | None => None
              end
            else Some ([], s')
        | [] => Some ([], [])
        end
      else
        match lex_quoted close s' with
        | Some (v, r) => Some (c :: v, r)
        | None => None
        end
  end.

(** MySQL string literals (default sql_mode) also interpret backslashes. *)
Definition mysql_unescape (c : ascii) : ascii :=
  if ceqb c "n"%char then LF
  else if ceqb c "r"%char then CR
  else if ceqb c "t"%char then TAB
  else if ceqb c "0"%char then Ascii.zero
  else if ceqb c "b"%char then ascii_of_nat 8
  else if ceqb c "Z"%char then ascii_of_nat 26
  else c.

Definition backslash : ascii := ascii_of_nat 92.

Fixpoint lex_quoted_bs (close : ascii) (s : bytes) : option (bytes * bytes) :=
  match s with
  | [] => None
  | c :: s' =>
      if ceqb c backslash then
        match s' with
        | c' :: s'' =>
            match lex_quoted_bs close s'' with
            | Some (v, r) => Some (mysql_unescape c' :: v, r)
            | None => None
            end
        | [] => None
        end
      else if ceqb c close then
        match s' with
        | c' :: s'' =>
            if ceqb c' close then
              match lex_quoted_bs close s'' with
              | Some (v, r) => Some (close :: v, r)
              | None => None
              end
            else Some ([], s')
        | [] => Some ([], [])
        end
      else
        match lex_quoted_bs close s' with
        | Some (v, r) => Some (c :: v, r)
        | None => None
        end
  end.

(** ** Identifiers *)
(** Characters that may continue an unquoted identifier in some dialect. *)
Definition ident_continue (c : ascii) : bool :=
  is_letter c || is_digit c || ceqb c underscore || ceqb c "$"%char || (128 <=? cn c).
Definition ident_start (c : ascii) : bool := is_letter c || ceqb c underscore.

Fixpoint take_ident (s : bytes) : bytes * bytes :=
  match s with
  | c :: s' =>
      if ident_continue c then let '(a, b) := take_ident s' in (c :: a, b) else ([], s)
  | [] => ([], [])
  end.

(** Quote characters of a dialect's delimited identifiers. *)
Definition id_open (d : dialect) : ascii :=
  match d with MySQL => "`"%char | SQLServer => "["%char | _ => ascii_of_nat 34 end.
Definition id_close (d : dialect) : ascii :=
  match d with MySQL => "`"%char | SQLServer => "]"%char | _ => ascii_of_nat 34 end.

(** Postgres folds unquoted identifiers to lower case. *)
Definition fold_ident (d : dialect) (s : bytes) : bytes :=
  match d with Postgres => to_lower s | _ => s end.

(** Reserved words of each dialect, as listed in the reference manuals of the databases
    (for SQLite the words the parser never accepts as an identifier).  These lists were
    written down independently of the maps in the Go code. *)
Definition sqlite_reserved : list bytes := map B [
  "add"; "all"; "alter"; "and"; "as"; "autoincrement"; "between"; "case"; "check";
  "collate"; "commit"; "constraint"; "create"; "default"; "deferrable"; "delete";
  "distinct"; "drop"; "else"; "escape"; "except"; "exists"; "foreign"; "from"; "group";
  "having"; "if"; "in"; "index"; "insert"; "intersect"; "into"; "is"; "isnull"; "join";
  "limit"; "not"; "notnull"; "null"; "on"; "or"; "order"; "primary"; "references"; "select";
  "set"; "table"; "then"; "to"; "transaction"; "union"; "unique"; "update"; "using";
  "values"; "when"; "where"]%string.
Definition postgres_reserved : list bytes := map B [
  "all"; "analyse"; "analyze"; "and"; "any"; "array"; "as"; "asc"; "asymmetric"; "both";
  "case"; "cast"; "check"; "collate"; "column"; "constraint"; "create"; "current_catalog";
  "current_date"; "current_role"; "current_time"; "current_timestamp"; "current_user";
  "default"; "deferrable"; "desc"; "distinct"; "do"; "else"; "end"; "except"; "false";
  "fetch"; "for"; "foreign"; "from"; "grant"; "group"; "having"; "in"; "initially";
  "intersect"; "into"; "lateral"; "leading"; "limit"; "localtime"; "localtimestamp"; "not";
  "null"; "offset"; "on"; "only"; "or"; "order"; "placing"; "primary"; "references";
  "returning"; "select"; "session_user"; "some"; "symmetric"; "table"; "then"; "to";
  "trailing"; "true"; "union"; "unique"; "user"; "using"; "variadic"; "when"; "where";
  "window"; "with"]%string.
Definition mysql_reserved : list bytes := map B [
  "accessible"; "add"; "all"; "alter"; "analyze"; "and"; "as"; "asc"; "asensitive";
  "before"; "between"; "bigint"; "binary"; "blob"; "both"; "by"; "call"; "cascade"; "case";
  "change"; "char"; "character"; "check"; "collate"; "column"; "condition"; "constraint";
  "continue"; "convert"; "create"; "cross"; "cube"; "cume_dist"; "current_date";
  "current_time"; "current_timestamp"; "current_user"; "cursor"; "database"; "databases";
  "day_hour"; "day_microsecond"; "day_minute"; "day_second"; "dec"; "decimal"; "declare";
  "default"; "delayed"; "delete"; "dense_rank"; "desc"; "describe"; "deterministic";
  "distinct"; "distinctrow"; "div"; "double"; "drop"; "dual"; "each"; "else"; "elseif";
  "empty"; "enclosed"; "escaped"; "except"; "exists"; "exit"; "explain"; "false"; "fetch";
  "first_value"; "float"; "float4"; "float8"; "for"; "force"; "foreign"; "from"; "fulltext";
  "function"; "generated"; "get"; "grant"; "group"; "grouping"; "groups"; "having";
  "high_priority"; "hour_microsecond"; "hour_minute"; "hour_second"; "if"; "ignore"; "in";
  "index"; "infile"; "inner"; "inout"; "insensitive"; "insert"; "int"; "int1"; "int2";
  "int3"; "int4"; "int8"; "integer"; "intersect"; "interval"; "into"; "io_after_gtids";
  "io_before_gtids"; "is"; "iterate"; "join"; "json_table"; "key"; "keys"; "kill"; "lag";
  "last_value"; "lateral"; "lead"; "leading"; "leave"; "left"; "like"; "limit"; "linear";
  "lines"; "load"; "localtime"; "localtimestamp"; "lock"; "long"; "longblob"; "longtext";
  "loop"; "low_priority"; "master_bind"; "master_ssl_verify_server_cert"; "match";
  "maxvalue"; "mediumblob"; "mediumint"; "mediumtext"; "middleint"; "minute_microsecond";
  "minute_second"; "mod"; "modifies"; "natural"; "not"; "no_write_to_binlog"; "nth_value";
  "ntile"; "null"; "numeric"; "of"; "on"; "optimize"; "optimizer_costs"; "option";
  "optionally"; "or"; "order"; "out"; "outer"; "outfile"; "over"; "partition";
  "percent_rank"; "precision"; "primary"; "procedure"; "purge"; "range"; "rank"; "read";
  "reads"; "read_write"; "real"; "recursive"; "references"; "regexp"; "release"; "rename";
  "repeat"; "replace"; "require"; "resignal"; "restrict"; "return"; "revoke"; "right";
  "rlike"; "row"; "rows"; "row_number"; "schema"; "schemas"; "second_microsecond"; "select";
  "sensitive"; "separator"; "set"; "show"; "signal"; "smallint"; "spatial"; "specific";
  "sql"; "sqlexception"; "sqlstate"; "sqlwarning"; "sql_big_result"; "sql_calc_found_rows";
  "sql_small_result"; "ssl"; "starting"; "stored"; "straight_join"; "system"; "table";
  "terminated"; "then"; "tinyblob"; "tinyint"; "tinytext"; "to"; "trailing"; "trigger";
  "true"; "undo"; "union"; "unique"; "unlock"; "unsigned"; "update"; "usage"; "use";
  "using"; "utc_date"; "utc_time"; "utc_timestamp"; "values"; "varbinary"; "varchar";
  "varcharacter"; "varying"; "virtual"; "when"; "where"; "while"; "window"; "with"; "write";
  "xor"; "year_month"; "zerofill"]%string.
Definition sqlserver_reserved : list bytes := map B [
  "add"; "all"; "alter"; "and"; "any"; "as"; "asc"; "authorization"; "backup"; "begin";
  "between"; "break"; "browse"; "bulk"; "by"; "cascade"; "case"; "check"; "checkpoint";
  "close"; "clustered"; "coalesce"; "collate"; "column"; "commit"; "compute"; "constraint";
  "contains"; "containstable"; "continue"; "convert"; "create"; "cross"; "current";
  "current_date"; "current_time"; "current_timestamp"; "current_user"; "cursor"; "database";
  "dbcc"; "deallocate"; "declare"; "default"; "delete"; "deny"; "desc"; "disk"; "distinct";
  "distributed"; "double"; "drop"; "dump"; "else"; "end"; "errlvl"; "escape"; "except";
  "exec"; "execute"; "exists"; "exit"; "external"; "fetch"; "file"; "fillfactor"; "for";
  "foreign"; "freetext"; "freetexttable"; "from"; "full"; "function"; "goto"; "grant";
  "group"; "having"; "holdlock"; "identity"; "identity_insert"; "identitycol"; "if"; "in";
  "index"; "inner"; "insert"; "intersect"; "into"; "is"; "join"; "key"; "kill"; "left";
  "like"; "lineno"; "load"; "merge"; "national"; "nocheck"; "nonclustered"; "not"; "null";
  "nullif"; "of"; "off"; "offsets"; "on"; "open"; "opendatasource"; "openquery";
  "openrowset"; "openxml"; "option"; "or"; "order"; "outer"; "over"; "percent"; "pivot";
  "plan"; "precision"; "primary"; "print"; "proc"; "procedure"; "public"; "raiserror";
  "read"; "readtext"; "reconfigure"; "references"; "replication"; "restore"; "restrict";
  "return"; "revert"; "revoke"; "right"; "rollback"; "rowcount"; "rowguidcol"; "rule";
  "save"; "schema"; "securityaudit"; "select"; "semantickeyphrasetable";
  "semanticsimilaritydetailstable"; "semanticsimilaritytable"; "session_user"; "set";
  "setuser"; "shutdown"; "some"; "statistics"; "system_user"; "table"; "tablesample";
  "textsize"; "then"; "to"; "top"; "tran"; "transaction"; "trigger"; "truncate";
  "try_convert"; "tsequal"; "union"; "unique"; "unpivot"; "update"; "updatetext"; "use";
  "user"; "values"; "varying"; "view"; "waitfor"; "when"; "where"; "while"; "with";
  "writetext"]%string.
Definition reserved (d : dialect) : list bytes :=
  match d with
  | SQLite => sqlite_reserved
  | Postgres => postgres_reserved
  | MySQL => mysql_reserved
  | SQLServer => sqlserver_reserved
  | Other => []
  end.

(** One identifier at the start of [s]: the name it denotes and the rest. *)
Definition lex_ident (d : dialect) (s : bytes) : option (bytes * bytes) :=
  match s with
  | [] => None
  | c :: s' =>
      if ceqb c (id_open d) then lex_quoted (id_close d) s'
      else if ident_start c then
        let '(w, r) := take_ident s in
        if bmem (to_lower w) (reserved d) then None else Some (fold_ident d w, r)
      else None
  end.

(** Text that may follow an identifier in a statement: the end, or a character
    that neither continues an identifier nor is a quote. *)
Definition delimited (rest : bytes) : Prop :=
  match rest with
  | [] => True
  | c :: _ =>
      ident_continue c = false /\ c <> ascii_of_nat 34 /\ c <> "'"%char
      /\ c <> "`"%char /\ c <> "]"%char
  end.

(** ** String expressions *)
Definition lex_strlit (d : dialect) (s : bytes) : option (bytes * bytes) :=
  match d with MySQL => lex_quoted_bs "'"%char s | _ => lex_quoted "'"%char s end.

(** The one-argument character function of the dialect. *)
Definition chr_name (d : dialect) : bytes :=
  match d with Postgres => B"CHR(" | _ => B"CHAR(" end.

(** A string literal or a call CHR(n)/CHAR(n) with a decimal code below 128. *)
Definition eval_prim (d : dialect) (s : bytes) : option (bytes * bytes) :=
  match strip_prefix (B"'") s with
  | Some s' => lex_strlit d s'
  | None =>
      match strip_prefix (chr_name d) s with
      | Some s' =>
          match cut_byte ")"%char s' with
          | Some (num, rest) =>
              match dec_N num with
              | Some n => if (n <? 128)%N then Some ([ascii_of_N n], rest) else None
              | None => None
              end
          | None => None
          end
      | None => None
      end
  end.

(** A list of primitives separated by [sep]. *)
Fixpoint eval_list (fuel : nat) (d : dialect) (sep : bytes) (s : bytes)
  : option (list bytes * bytes) :=
  match fuel with
  | O => None
  | S f =>
      match eval_prim d s with
      | None => None
      | Some (v, rest) =>
          match strip_prefix sep rest with
          | Some rest' =>
              match eval_list f d sep rest' with
              | Some (vs, r) => Some (v :: vs, r)
              | None => None
              end
          | None => Some ([v], rest)
          end
      end
  end.

(** SQL Server's CONCAT takes between 2 and 254 arguments. *)
Definition concat_arity_ok (d : dialect) (n : nat) : bool :=
  match d with SQLServer => (2 <=? n) && (n <=? 254) | _ => 1 <=? n end.

(** A string expression at the start of [s]: its value and the rest. *)
Definition eval_string (d : dialect) (s : bytes) : option (bytes * bytes) :=
  match d with
  | MySQL | SQLServer =>
      match strip_prefix (B"CONCAT(") s with
      | Some s' =>
          match eval_list (S (List.length s)) d (B", ") s' with
          | Some (vs, rest) =>
              match strip_prefix (B")") rest with
              | Some rest' =>
                  if concat_arity_ok d (List.length vs) then Some (List.concat vs, rest') else None
              | None => None
              end
          | None => None
          end
      | None => eval_prim d s
      end
  | _ =>
      match eval_list (S (List.length s)) d (B" || ") s with
      | Some (vs, rest) => Some (List.concat vs, rest)
      | None => None
      end
  end.

(** ** Other constants *)
Definition hexval (c : ascii) : option nat :=
  let n := cn c in
  if (48 <=? n) && (n <=? 57) then Some (n - 48)
  else if (97 <=? n) && (n <=? 102) then Some (n - 87)
  else if (65 <=? n) && (n <=? 70) then Some (n - 55)
  else None.

Fixpoint hex_decode (s : bytes) : option bytes :=
  match s with
  | [] => Some []
  | a :: b :: s' =>
      match hexval a, hexval b, hex_decode s' with
      | Some x, Some y, Some r => Some (ascii_of_nat (16 * x + y) :: r)
      | _, _, _ => None
      end
  | _ => None
  end.

(** A binary constant: X'..' (standard), 0x.. (SQL Server), and on Postgres a string
    constant in bytea hex format. *)
Definition eval_bytes (d : dialect) (s : bytes) : option bytes :=
  match d with
  | Postgres =>
      match strip_prefix (B"'") s with
      | Some s' =>
          match lex_quoted "'"%char s' with
          | Some (v, []) =>
              match strip_prefix (B"\x") v with Some h => hex_decode h | None => None end
          | _ => None
          end
      | None => None
      end
  | SQLServer =>
      match strip_prefix (B"0x") s with Some h => hex_decode h | None => None end
  | _ =>
      match strip_prefix (B"x'") s with
      | Some s' =>
          match cut_byte "'"%char s' with
          | Some (h, []) => hex_decode h
          | _ => None
          end
      | None => None
      end
  end.

(** An integer constant with optional minus sign. *)
Definition eval_int (s : bytes) : option Z :=
  match s with
  | c :: s' =>
      if ceqb c "-"%char then option_map (fun n => Z.opp (Z.of_N n)) (dec_N s')
      else option_map Z.of_N (dec_N s)
  | [] => None
  end.

(** A boolean constant (SQL Server has only bit constants). *)
Definition eval_bool (d : dialect) (s : bytes) : option bool :=
  match d with
  | SQLServer =>
      if beqb s (B"1") then Some true else if beqb s (B"0") then Some false else None
  | _ =>
      if beqb s (B"TRUE") then Some true else if beqb s (B"FALSE") then Some false else None
  end.
