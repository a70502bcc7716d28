(** Model of NormalizeDSN, ddl.go:978-1062, with the functions PreprocessDSN of the drivers that main.go:16-22
    registers (drivers/ddlsqlite3/ddlsqlite3.go:17-29, ddlpgx/ddlpgx.go:26-36, ddlmysql/ddlmysql.go:25-73,
    ddlsqlserver/ddlsqlserver.go:27-43, ddloracle/ddloracle.go:23-25).

    Simplified: the net/url functions are modelled as far as they are used here (Parse for URLs with two
    slashes behind the scheme; a percent sign in the host is refused); the Oracle dialect is [Other]. *)
From Verif Require Import GoStr ModelSq.

(** ** net/url *)
(** strings.Cut(s, c), strings.LastIndex *)
Definition cut_or (c : ascii) (s : bytes) : bytes * bytes := match cut_byte c s with Some p => p | None => (s, []) end.
Definition cut_last (c : ascii) (s : bytes) : option (bytes * bytes) :=
  match cut_byte c (rev s) with Some (a, b) => Some (rev b, rev a) | None => None end.
Definition unhex (c : ascii) : option nat :=
  if is_digit c then Some (cn c - 48)
  else if (97 <=? cn c) && (cn c <=? 102) then Some (cn c - 87)
  else if (65 <=? cn c) && (cn c <=? 70) then Some (cn c - 55)
  else None.
(** url.QueryUnescape ([plus]) and url.PathUnescape *)
Fixpoint unescape (plus : bool) (s : bytes) : option bytes :=
  match s with
  | [] => Some []
  | c :: s' =>
      if ceqb c "%"%char then
        match s' with
        | x :: y :: s'' =>
            match unhex x, unhex y, unescape plus s'' with
            | Some a, Some b, Some r => Some (ascii_of_nat (16 * a + b) :: r)
            | _, _, _ => None
            end
        | _ => None
        end
      else match unescape plus s' with
           | Some r => Some ((if plus && ceqb c "+"%char then SPACE else c) :: r)
           | None => None
           end
  end.
(** url.QueryEscape *)
Definition unreserved (c : ascii) : bool := is_letter c || is_digit c || ceqb c "-" || ceqb c "_" || ceqb c "." || ceqb c "~".
Definition upper_hex (n : nat) : ascii := if n <? 10 then ascii_of_nat (48 + n) else ascii_of_nat (55 + n).
Definition escape_char (c : ascii) : bytes :=
  if ceqb c SPACE then B"+"
  else if unreserved c then [c]
  else ["%"%char; upper_hex (cn c / 16); upper_hex (cn c mod 16)].
Definition query_escape (s : bytes) : bytes := flat_map escape_char s.
(** url.Values: the pairs in the order in which they were added. *)
Definition pairs := list (bytes * bytes).
(** url.ParseQuery; [None] is an error. *)
Definition parse_pair (s : bytes) : option (bytes * bytes) :=
  let '(k, v) := cut_or "="%char s in
  match unescape true k, unescape true v with Some k, Some v => Some (k, v) | _, _ => None end.
Fixpoint parse_pairs (l : list bytes) : option pairs :=
  match l with
  | [] => Some []
  | s :: l' =>
      if contains s (B";") then None
      else if beqb s [] then parse_pairs l'
      else match parse_pair s, parse_pairs l' with Some p, Some q => Some (p :: q) | _, _ => None end
  end.
Definition parse_query (s : bytes) : option pairs := parse_pairs (split_byte "&"%char s).
(** Values.Has, Values.Set, Values.Encode *)
Definition has_key (k : bytes) (q : pairs) : bool := existsb (fun p => beqb (fst p) k) q.
Definition set_key (k v : bytes) (q : pairs) : pairs := filter (fun p => negb (beqb (fst p) k)) q ++ [(k, v)].
Definition set_default (k v : bytes) (q : pairs) : pairs := if has_key k q then q else set_key k v q.
Fixpoint insert_pair (p : bytes * bytes) (l : pairs) : pairs :=
  match l with
  | [] => [p]
  | x :: l' => if bltb (fst x) (fst p) then x :: insert_pair p l' else p :: l
  end.
Definition sort_pairs (q : pairs) : pairs := fold_right insert_pair [] q.
Definition encode (q : pairs) : bytes :=
  join (B"&") (map (fun p => query_escape (fst p) ++ B"=" ++ query_escape (snd p)) (sort_pairs q)).
(** url.Parse behind "scheme://". *)
Record url := Url { u_user : option (bytes * option bytes); u_host : bytes; u_path : bytes; u_query : bytes }.
Definition control (c : ascii) : bool := (cn c <? 32) || (cn c =? 127).
Definition userinfo_char (c : ascii) : bool := is_letter c || is_digit c || existsb (ceqb c) (B"-._:~!$&'()*+,;=%@").
Definition host_char (c : ascii) : bool :=
  unreserved c || existsb (ceqb c) (B"!$&'()*+,;=:[]<>" ++ [dquote]) || (128 <=? cn c).
(** validOptionalPort *)
Definition valid_port (s : bytes) : bool :=
  match s with [] => true | c :: s' => ceqb c ":" && forallb is_digit s' end.
Definition parse_host (s : bytes) : option bytes :=
  let port_ok :=
    if has_prefix s (B"[") then match cut_last "]"%char s with Some (_, p) => valid_port p | None => false end
    else match cut_last ":"%char s with Some (_, p) => valid_port (":"%char :: p) | None => true end in
  if port_ok && forallb host_char s then Some s else None.
Definition parse_user (s : bytes) : option (bytes * option bytes) :=
  if negb (forallb userinfo_char s) then None
  else match cut_byte ":"%char s with
       | None => match unescape false s with Some u => Some (u, None) | None => None end
       | Some (u, p) => match unescape false u, unescape false p with Some u, Some p => Some (u, Some p) | _, _ => None end
       end.
Definition parse_url (s : bytes) : option url :=
  let '(s, frag) := cut_or "#"%char s in
  if existsb control s then None
  else match unescape false frag with
  | None => None
  | Some _ =>
      let '(rest, query) := cut_or "?"%char s in
      let '(authority, path) := match cut_byte "/"%char rest with Some (a, p) => (a, "/"%char :: p) | None => (rest, []) end in
      let user := match cut_last "@"%char authority with
                  | Some (ui, h) => match parse_user ui, parse_host h with Some u, Some h => Some (Some u, h) | _, _ => None end
                  | None => match parse_host authority with Some h => Some (None, h) | None => None end
                  end in
      match user, unescape false path with
      | Some (u, h), Some p => Some (Url u h p query)
      | _, _ => None
      end
  end.

(** ** The drivers *)
Definition add_keys (add : pairs -> pairs) (dsn : bytes) : bytes :=
  let '(before, after) := cut_or "?"%char dsn in
  match parse_query after with
  | None => dsn
  | Some q => before ++ B"?" ++ encode (add q)
  end.
(** ddlsqlite3.go:18-28 *)
Definition sqlite_dsn (dsn : bytes) : bytes :=
  add_keys (fun q => if negb (has_key (B"_foreign_keys") q) && negb (has_key (B"_fk") q) then set_key (B"_foreign_keys") (B"true") q else q)
    (trim_prefix (trim_prefix dsn (B"sqlite:")) (B"//")).
(** ddlpgx.go:27-35 *)
Definition postgres_dsn (dsn : bytes) : bytes := add_keys (set_default (B"sslmode") (B"disable")) dsn.
(** ddlmysql.go:26-55 *)
Definition mysql_url (u : url) : bytes :=
  let user := match u_user u with
              | None => []
              | Some (n, p) => n ++ match p with Some p => B":" ++ p | None => [] end
              end in
  user
  ++ (match u_host u with [] => [] | h => (match user with [] => [] | _ => B"@" end) ++ B"tcp(" ++ h ++ B")" end)
  ++ B"/" ++ trim_prefix (u_path u) (B"/")
  ++ match u_query u with [] => [] | q => B"?" ++ q end.
(** ddlmysql.go:25-73 *)
Definition mysql_dsn (dsn : bytes) : bytes :=
  let dsn := match strip_prefix (B"mysql://") dsn with
             | None => dsn
             | Some rest => match parse_url rest with Some u => mysql_url u | None => rest end
             end in
  add_keys (fun q => set_default (B"parseTime") (B"true") (set_default (B"multiStatements") (B"true")
    (set_default (B"allowAllFiles") (B"true") q))) dsn.
(** ddlsqlserver.go:28-42; the URL begins with sqlserver:// *)
Definition sqlserver_dsn (dsn : bytes) : bytes :=
  match parse_url (trim_prefix dsn (B"sqlserver://")) with
  | None => dsn
  | Some u =>
      match u_path u with
      | [] => dsn
      | _ :: db =>
          let '(before, after) := cut_or "?"%char dsn in
          match parse_query after with
          | None => dsn
          | Some q => trim_suffix before (u_path u) ++ B"?" ++ encode (set_key (B"database") db q)
          end
      end
  end.

(** ** NormalizeDSN *)
(** What os.Open and reading the file give. *)
Inductive file := Missing | Unreadable | Content (c : bytes).
Definition sqlite_suffix (s : bytes) : bool :=
  has_suffix s (B".sqlite") || has_suffix s (B".sqlite3") || has_suffix s (B".db") || has_suffix s (B".db3").
Definition sqlite_header : bytes := B"SQLite format 3" ++ [ascii_of_nat 0].
(** ddl.go:1016-1035; [None]: unknown. *)
Definition dialect_of (dsn : bytes) : option dialect :=
  let trimmed := fst (cut_or "?"%char dsn) in
  if has_prefix dsn (B"sqlite:") || has_prefix dsn (B"sqlite3:") then Some SQLite
  else if has_prefix dsn (B"postgres://") then Some Postgres
  else if has_prefix dsn (B"mysql://") then Some MySQL
  else if has_prefix dsn (B"sqlserver://") then Some SQLServer
  else if has_prefix dsn (B"oracle://") then Some Other
  else if contains dsn (B"@tcp(") || contains dsn (B"@unix(") then Some MySQL
  else if sqlite_suffix trimmed then Some SQLite
  else None.
Definition preprocess (d : dialect) (dsn : bytes) : bytes :=
  match d with
  | SQLite => sqlite_dsn dsn
  | Postgres => postgres_dsn dsn
  | MySQL => mysql_dsn dsn
  | SQLServer => sqlserver_dsn dsn
  | Other => dsn
  end.
Definition known (dsn : bytes) : option (dialect * bytes) :=
  match dialect_of dsn with Some d => Some (d, preprocess d dsn) | None => None end.
(** ddl.go:982-1014 *)
Definition normalize_dsn (fs : bytes -> file) (dsn : bytes) : option (dialect * bytes) :=
  if has_prefix dsn (B"file:") then
    let filename := fst (cut_or "?"%char (trim_prefix (trim_prefix dsn (B"file:")) (B"//"))) in
    match fs filename with
    | Missing => if sqlite_suffix filename then Some (SQLite, dsn) else None
    | Unreadable => None
    | Content c =>
        if List.length c <? 16 then None
        else if has_prefix c sqlite_header then known (B"sqlite:" ++ dsn)
        else known (trim_space c)
    end
  else known dsn.
