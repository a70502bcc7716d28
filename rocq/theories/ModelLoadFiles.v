(** Model of the choice and the order of the files that load runs: LoadCmd.Run
    (load_cmd.go:202-265), loadZip (load_cmd.go:542-717), loadTgz (load_cmd.go:719-886) and
    loadDir (load_cmd.go:888-995), and of the files that dump writes: dumpZip, dumpTgz and dumpDir
    (dump_cmd.go:315-621).

    Simplified: running a script and loading a CSV file are oracles that say whether this
    succeeds; archives are the list of their entries (the reading of zip and tar.gz is not
    modelled, nor that zip archives in an embed.FS are refused); file names have slashes only (filepath.ToSlash is the identity). *)
From Verif Require Import GoStr.

Definition SLASH : ascii := "/"%char.
Definition DOT : bytes := B".".
Definition DOTDOT : bytes := B"..".

(** ** path/filepath on Unix *)
(** filepath.Clean: empty elements and "." are left out, ".." takes the element before it away;
    [acc] has the elements so far, the last one first. *)
Fixpoint clean_elems (rooted : bool) (acc : list bytes) (es : list bytes) : list bytes :=
  match es with
  | [] => rev acc
  | e :: r =>
      if beqb e [] || beqb e DOT then clean_elems rooted acc r
      else if beqb e DOTDOT then
        match acc with
        | x :: acc' => if beqb x DOTDOT then clean_elems rooted (DOTDOT :: acc) r else clean_elems rooted acc' r
        | [] => if rooted then clean_elems rooted [] r else clean_elems rooted [DOTDOT] r
        end
      else clean_elems rooted (e :: acc) r
  end.
Definition clean_path (p : bytes) : bytes :=
  let es := clean_elems (has_prefix p [SLASH]) [] (split_byte SLASH p) in
  if has_prefix p [SLASH] then SLASH :: join [SLASH] es
  else match es with [] => DOT | _ => join [SLASH] es end.
(** filepath.Dir: what precedes the last element, cleaned. *)
Definition dir_name (p : bytes) : bytes := clean_path (firstn (length p - length (basename p)) p).

(** ** What load does *)
(** The name of an entry and its contents. *)
Definition entry := (bytes * bytes)%type.
Inductive action :=
| RunScript (contents : bytes)                    (* conn.ExecContext of loadSQL *)
| LoadCsv (name contents : bytes)                 (* loadCSV *)
| LoadTogether (csvs : list (bytes * bytes)).     (* loadCSV in one goroutine for each file *)

(** What has been done, and whether it goes on. *)
Definition doing := (list action * bool)%type.

Section Load.
(** [sqlite] says whether cmd.Dialect is SQLite; [works before a] whether [a] succeeds. *)
Context (sqlite : bool) (works : list action -> action -> bool).

Definition perform (a : action) (w : doing) : doing :=
  if snd w then (fst w ++ [a], works (fst w) a) else w.
(** loadSQL, load_cmd.go:276-323: nothing is done for an empty file. *)
Definition load_sql (contents : bytes) (w : doing) : doing :=
  match contents with [] => w | _ => perform (RunScript contents) w end.
Definition load_if (o : option entry) (w : doing) : doing :=
  match o with Some e => load_sql (snd e) w | None => w end.
(** One after the other. *)
Definition load_each (es : list entry) (w : doing) : doing :=
  fold_left (fun w e => perform (LoadCsv (fst e) (snd e)) w) es w.
(** load_cmd.go:631-689 and 922-967: concurrently, unless the database is SQLite. *)
Definition load_csvs (es : list entry) (w : doing) : doing :=
  if sqlite then load_each es w
  else match es with [] => w | _ => perform (LoadTogether es) w end.

(** *** Zip archives *)
(** load_cmd.go:592. *)
Definition zip_stem (zip_name : bytes) : bytes := trim_suffix (trim_prefix (basename zip_name) (B"./")) (B".zip").
Definition MACOSX : bytes := B"__MACOSX/".
Definition SCHEMA : bytes := B"schema.sql".
Definition INDEXES : bytes := B"indexes.sql".
Definition CONSTRAINTS : bytes := B"constraints.sql".
Definition is_script (stem f name : bytes) : bool := beqb name f || beqb name (stem ++ SLASH :: f).
Record located := Located { l_schema : option entry; l_indexes : option entry; l_constraints : option entry }.
Definition all_located (l : located) : bool :=
  match l with Located (Some _) (Some _) (Some _) => true | _ => false end.
(** load_cmd.go:602-612. *)
Definition locate (stem : bytes) (e : entry) (l : located) : located :=
  if is_script stem SCHEMA (fst e) then Located (Some e) (l_indexes l) (l_constraints l)
  else if is_script stem INDEXES (fst e) then Located (l_schema l) (Some e) (l_constraints l)
  else if is_script stem CONSTRAINTS (fst e) then Located (l_schema l) (l_indexes l) (Some e)
  else l.
(** load_cmd.go:597-616. *)
Fixpoint locate_zip (stem : bytes) (es : list entry) (l : located) : located :=
  match es with
  | [] => l
  | e :: r =>
      if has_prefix (fst e) MACOSX then locate_zip stem r l
      else let l' := locate stem e l in
           if all_located l' then l' else locate_zip stem r l'
  end.
(** load_cmd.go:644-650 and 850-856. *)
Definition is_csv (stem : bytes) (e : entry) : bool :=
  has_suffix (fst e) (B".csv") && (beqb (dir_name (fst e)) DOT || beqb (dir_name (fst e)) stem).
(** load_cmd.go:594-717. *)
Definition load_zip (zip_name : bytes) (es : list entry) (w : doing) : doing :=
  let stem := zip_stem zip_name in
  let l := locate_zip stem es (Located None None None) in
  let w1 := load_if (l_schema l) w in
  let w2 := load_csvs (filter (fun e => negb (has_prefix (fst e) MACOSX) && is_csv stem e) es) w1 in
  let w3 := load_if (l_indexes l) w2 in
  load_if (l_constraints l) w3.

(** *** Tar gzip archives *)
(** load_cmd.go:772-777. *)
Definition tgz_stem (tgz_name : bytes) : bytes :=
  let b := trim_prefix (basename tgz_name) (B"./") in
  if has_suffix tgz_name (B".tar.gz") then trim_suffix b (B".tar.gz") else trim_suffix b (B".tgz").
(** The three buffers. *)
Record buffers := Buffers { b_schema : bytes; b_indexes : bytes; b_constraints : bytes }.
Definition all_buffered (b : buffers) : bool :=
  match b with Buffers (_ :: _) (_ :: _) (_ :: _) => true | _ => false end.
(** load_cmd.go:791-810: what is read is appended to the buffer. *)
Definition buffer (stem : bytes) (e : entry) (b : buffers) : buffers :=
  if is_script stem SCHEMA (fst e) then Buffers (b_schema b ++ snd e) (b_indexes b) (b_constraints b)
  else if is_script stem INDEXES (fst e) then Buffers (b_schema b) (b_indexes b ++ snd e) (b_constraints b)
  else if is_script stem CONSTRAINTS (fst e) then Buffers (b_schema b) (b_indexes b) (b_constraints b ++ snd e)
  else b.
(** load_cmd.go:783-814. *)
Fixpoint buffer_tgz (stem : bytes) (es : list entry) (b : buffers) : buffers :=
  match es with
  | [] => b
  | e :: r => let b' := buffer stem e b in if all_buffered b' then b' else buffer_tgz stem r b'
  end.
(** load_cmd.go:820-886. *)
Definition load_tgz (tgz_name : bytes) (es : list entry) (w : doing) : doing :=
  let stem := tgz_stem tgz_name in
  let b := buffer_tgz stem es (Buffers [] [] []) in
  let w1 := load_sql (b_schema b) w in
  let w2 := load_each (filter (is_csv stem) es) w1 in
  let w3 := load_sql (b_indexes b) w2 in
  load_sql (b_constraints b) w3.

(** *** Directories *)
(** What a directory has, in the order of the names: files with their contents, and directories. *)
Inductive item := AFile (contents : bytes) | ADirectory.
Definition listing := list (bytes * item).
Definition look_up (f : bytes) (l : listing) : option item :=
  match find (fun x => beqb (fst x) f) l with Some x => Some (snd x) | None => None end.
(** load_cmd.go:891-902, 969-980 and 982-993: a missing file is left out; reading a directory fails. *)
Definition load_file (f : bytes) (l : listing) (w : doing) : doing :=
  match look_up f l with
  | None => w
  | Some (AFile c) => load_sql c w
  | Some ADirectory => (fst w, false)
  end.
(** load_cmd.go:904-917. *)
Definition csv_files (l : listing) : list entry :=
  flat_map (fun x => match snd x with
                     | AFile c => if has_suffix (fst x) (B".csv") then [(fst x, c)] else []
                     | ADirectory => []
                     end) l.
(** load_cmd.go:890-995; what fails is the end. *)
Definition load_dir (l : listing) (w : doing) : doing :=
  let go (f : doing -> doing) (w : doing) := if snd w then f w else w in
  go (load_file CONSTRAINTS l) (go (load_file INDEXES l) (go (load_csvs (csv_files l)) (load_file SCHEMA l w))).

(** *** The arguments *)
(** What is found under the name of an argument; an archive that cannot be read is [Broken]. *)
Inductive node := Regular (contents : bytes) | Zipped (es : list entry) | Tarred (es : list entry) | Directory (l : listing) | Broken.
(** One round of the loop, load_cmd.go:203-265; [None]: there is no such file. *)
Definition load_arg (arg : bytes) (n : option node) (w : doing) : doing :=
  match n with
  | None => (fst w, false)
  | Some n =>
      if has_suffix arg (B".sql") then match n with Regular c => load_sql c w | _ => (fst w, false) end
      else if has_suffix arg (B".csv") then match n with Regular c => perform (LoadCsv arg c) w | _ => (fst w, false) end
      else if has_suffix arg (B".zip") then match n with Zipped es => load_zip arg es w | _ => (fst w, false) end
      else if has_suffix arg (B".tgz") || has_suffix arg (B".tar.gz") then
        match n with Tarred es => load_tgz arg es w | _ => (fst w, false) end
      else match n with Directory l => load_dir l w | _ => w end
  end.
(** load_cmd.go:203-265. *)
Fixpoint load_args (fs : bytes -> option node) (args : list bytes) (w : doing) : doing :=
  match args with
  | [] => w
  | a :: r => let w' := load_arg a (fs a) w in if snd w' then load_args fs r w' else w'
  end.
End Load.

(** ** What dump writes *)
(** The contents of the files, and the tables (schema, name, rows) of cmd.tableQueries. *)
Record dump_contents := DumpContents {
  dc_json : bytes; dc_schema : bytes; dc_indexes : bytes; dc_constraints : bytes;
  dc_tables : list (bytes * bytes * bytes) }.
(** dump_cmd.go:377-380, 489-492 and 599-602. *)
Definition dump_name (current : bytes) (schema name : bytes) : bytes :=
  let f := name ++ B".csv" in
  if negb (beqb schema []) && negb (beqb schema current) then schema ++ B"." ++ f else f.
(** dump_cmd.go:325-390 and 417-508: the entries of an archive. *)
Definition dump_entries (schema_only data_only : bool) (current : bytes) (c : dump_contents) : list entry :=
  (if negb schema_only && data_only then []
   else [(B"schema.json", dc_json c); (SCHEMA, dc_schema c); (INDEXES, dc_indexes c); (CONSTRAINTS, dc_constraints c)]) ++
  (if schema_only then [] else map (fun t : bytes * bytes * bytes => let '(s, n, rows) := t in (dump_name current s n, rows)) (dc_tables c)).
(** One file of dumpDir, dump_cmd.go:532-617: os.OpenFile with O_CREATE and O_TRUNC in a directory.
    Simplified: a name with a slash is refused (the directory that it names is not there), and
    files of the same name are written one after the other. *)
Fixpoint put_file (f contents : bytes) (l : listing) : option listing :=
  match l with
  | [] => Some [(f, AFile contents)]
  | (g, i) :: r =>
      if beqb f g then match i with AFile _ => Some ((f, AFile contents) :: r) | ADirectory => None end
      else if bltb f g then Some ((f, AFile contents) :: l)
      else match put_file f contents r with Some r' => Some ((g, i) :: r') | None => None end
  end.
(** dump_cmd.go:523-621, with the files of [dump_entries]. *)
Fixpoint dump_dir (es : list entry) (l : listing) : option listing :=
  match es with
  | [] => Some l
  | (f, c) :: r =>
      if existsb (ceqb SLASH) f then None
      else match put_file f c l with Some l' => dump_dir r l' | None => None end
  end.
