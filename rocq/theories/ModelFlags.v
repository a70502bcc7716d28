(** Model of the command line: FlagSet.Parse of Go's package flag (flag.go, parseOne), the flags of the subcommands
    (automigrate_cmd.go:83-157, dump_cmd.go:108-176, generate_cmd.go:81-152, load_cmd.go:100-147, ls_cmd.go:61-102,
    migrate_cmd.go:87-152, mv_cmd.go:47-86, rm_cmd.go:45-82, tables_cmd.go:58-110, touch_cmd.go:58-96, views_cmd.go:49-100,
    wipe_cmd.go:40-73), and main (main.go:44-260).

    Simplified: a variable is named by the flag that is bound to it; texts written to the terminal and what errors say are
    left out; strconv.ParseInt with base 0, time.ParseDuration and which database URLs are known are parameters. *)
From Verif Require Import GoStr ModelHistory.

(** ** Package flag *)
(** The value of a flag; which constructor it is says which kind of flag. *)
Inductive fval := FStr (s : bytes) | FBool (b : bool) | FInt (z : Z) | FList (l : list bytes).
Inductive outcome (A : Type) := Done (a : A) | AskedHelp | Wrong.
Arguments Done {A}. Arguments AskedHelp {A}. Arguments Wrong {A}.
(** strconv.ParseBool, atob.go. *)
Definition go_bool (s : bytes) : option bool :=
  if bmem s (map B ["1"; "t"; "T"; "true"; "TRUE"; "True"]%string) then Some true
  else if bmem s (map B ["0"; "f"; "F"; "false"; "FALSE"; "False"]%string) then Some false
  else None.
(** Value.Set: stringValue, boolValue, intValue; strslice, ddl.go:1074-1077. *)
Definition set_value (int_of : bytes -> option Z) (old : fval) (s : bytes) : option fval :=
  match old with
  | FStr _ => Some (FStr s)
  | FBool _ => option_map FBool (go_bool s)
  | FInt _ => option_map FInt (int_of s)
  | FList l => Some (FList (l ++ [s]))
  end.
Fixpoint find_flag (vs : list (bytes * fval)) (n : bytes) : option fval :=
  match vs with [] => None | (k, v) :: vs' => if beqb k n then Some v else find_flag vs' n end.
Fixpoint put_flag (vs : list (bytes * fval)) (n : bytes) (x : fval) : list (bytes * fval) :=
  match vs with [] => [] | (k, v) :: vs' => if beqb k n then (k, x) :: vs' else (k, v) :: put_flag vs' n x end.
(** The loop over the name: the first = that is not the first character. *)
Fixpoint cut_equal (s : bytes) : bytes * option bytes :=
  match s with
  | [] => ([], None)
  | c :: s' => if ceqb c "=" then ([], Some s') else let (n, v) := cut_equal s' in (c :: n, v)
  end.
Definition name_value (s : bytes) : bytes * option bytes :=
  match s with [] => ([], None) | c :: s' => let (n, v) := cut_equal s' in (c :: n, v) end.
(** parseOne: what an argument is. *)
Inductive argument := NoFlag | Terminator | BadFlag | FlagArg (name : bytes) (value : option bytes).
Definition argument_of (s : bytes) : argument :=
  match s with
  | a :: b :: r =>
      if ceqb a "-" then
        let name := if ceqb b "-" then r else b :: r in
        match name with
        | [] => if ceqb b "-" then Terminator else BadFlag
        | c :: _ => if ceqb c "-" || ceqb c "=" then BadFlag else let (n, v) := name_value name in FlagArg n v
        end
      else NoFlag
  | _ => NoFlag
  end.
(** Parse: the values of the flags and the other arguments. *)
Fixpoint parse_flags (int_of : bytes -> option Z) (vs : list (bytes * fval)) (args : list bytes) : outcome (list (bytes * fval) * list bytes) :=
  match args with
  | [] => Done (vs, [])
  | s :: args' =>
      match argument_of s with
      | NoFlag => Done (vs, args)
      | Terminator => Done (vs, args')
      | BadFlag => Wrong
      | FlagArg n given =>
          match find_flag vs n with
          | None => if beqb n (B"help") || beqb n (B"h") then AskedHelp else Wrong
          | Some old =>
              let set (v : bytes) (k : list (bytes * fval) -> outcome (list (bytes * fval) * list bytes)) :=
                match set_value int_of old v with Some x => k (put_flag vs n x) | None => Wrong end in
              match old, given with
              | FBool _, None => set (B"true") (fun vs' => parse_flags int_of vs' args')
              | _, Some v => set v (fun vs' => parse_flags int_of vs' args')
              | _, None => match args' with [] => Wrong | v :: args'' => set v (fun vs' => parse_flags int_of vs' args'') end
              end
          end
      end
  end.

(** ** The subcommands *)
Inductive command := Migrate | Ls | Touch | Rm | Mv | Tables | Views | Generate | Wipe | Dump | Load | Automigrate.
Definition str (n d : string) : bytes * fval := (B n, FStr (B d)).
Definition boolean (n : string) : bytes * fval := (B n, FBool false).
Definition command_flags (c : command) : list (bytes * fval) :=
  match c with
  | Migrate => [str "db" ""; str "dir" ""; str "history-table" "sqddl_history"; str "lock-timeout" "1s"; (B"max-attempts", FInt 10); str "max-delay" "5m"; str "base-delay" "1s";
                boolean "verbose"; boolean "skip-history-table"]
  | Ls => [str "db" ""; str "dir" ""; str "history-table" "sqddl_history"; boolean "pending"; boolean "applied"; boolean "failed"; boolean "missing"; boolean "all"]
  | Touch | Rm | Mv => [str "db" ""; str "dir" ""; str "history-table" "sqddl_history"]
  | Tables => [str "db" ""; str "history-table" "sqddl_history"; str "pkg" "_"; str "file" ""; boolean "schema-qualified-structs"; str "schemas" ""; str "exclude-schemas" "";
               str "tables" ""; str "exclude-tables" ""]
  | Views => [str "db" ""; str "history-table" ""; str "pkg" "_"; str "file" ""; str "schemas" ""; str "exclude-schemas" ""; str "views" ""; str "exclude-views" ""]
  | Generate => [str "db" ""; str "src" ""; str "dest" ""; str "output-dir" ""; str "history-table" "sqddl_history"; str "prefix" ""; boolean "drop-objects"; str "dialect" "";
                 boolean "accept-warnings"; boolean "dry-run"]
  | Wipe => [str "db" ""; str "history-table" ""; boolean "dry-run"]
  | Dump => [str "db" ""; str "output-dir" ""; str "history-table" "sqddl_history"; str "zip" ""; str "tgz" ""; boolean "schema-only"; boolean "data-only"; str "nullstring" "\N";
             str "binaryprefix" "0x"; str "schemas" ""; str "exclude-schemas" ""; str "tables" ""; str "exclude-tables" ""; (B"subset", FList []); (B"extended-subset", FList []);
             boolean "array-as-json"; boolean "uuid-as-bytes"]
  | Load => [str "db" ""; str "dir" ""; str "history-table" "sqddl_history"; str "nullstring" "\N"; str "binaryprefix" "0x"; (B"batchsize", FInt 1000); boolean "no-nullstring";
             boolean "no-binaryprefix"; boolean "verbose"; boolean "timestamp-as-integer"]
  | Automigrate => [str "db" ""; str "dir" ""; str "dest" ""; str "history-table" "sqddl_history"; boolean "drop-objects"; boolean "accept-warnings"; boolean "dry-run";
                    str "lock-timeout" "1s"; (B"max-attempts", FInt 10); str "max-delay" "5m"; str "base-delay" "1s"]
  end.
Definition text_flag (vs : list (bytes * fval)) (n : bytes) : bytes := match find_flag vs n with Some (FStr s) => s | _ => [] end.
(** Lists given with commas. *)
Definition list_flags (c : command) : list bytes :=
  match c with
  | Dump | Tables => map B ["schemas"; "exclude-schemas"; "tables"; "exclude-tables"]%string
  | Views => map B ["schemas"; "exclude-schemas"; "views"; "exclude-views"]%string
  | _ => []
  end.
Definition split_list (s : bytes) : list bytes := match s with [] => [] | _ => split_byte "," s end.
(** Durations; an empty text leaves 0. *)
Definition time_flags (c : command) : list bytes :=
  match c with Migrate | Automigrate => map B ["lock-timeout"; "max-delay"; "base-delay"]%string | _ => [] end.
Fixpoint durations (duration_of : bytes -> option Z) (vs : list (bytes * fval)) (l : list bytes) : option (list (bytes * Z)) :=
  match l with
  | [] => Some []
  | n :: l' =>
      match (match text_flag vs n with [] => Some 0%Z | s => duration_of s end), durations duration_of vs l' with
      | Some z, Some r => Some ((n, z) :: r)
      | _, _ => None
      end
  end.
Definition files_of (c : command) (dir : bytes) (args : list bytes) : list bytes :=
  match c with
  | Migrate | Touch | Rm | Load => map (fun f => normalize_filename f dir) args
  | Mv => map (fun f => normalize_filename f dir) (firstn 2 args)
  | _ => []
  end.
Definition needs_db (c : command) : bool := match c with Generate => false | _ => true end.
Definition needs_dir (c : command) : bool := match c with Migrate | Ls => true | _ => false end.
Record options := Options { o_values : list (bytes * fval); o_lists : list (bytes * list bytes); o_times : list (bytes * Z); o_files : list bytes }.
(** What surrounds the functions: ParseInt, ParseDuration, whether the dialect of a URL is known. *)
Record outside := Outside { int_of : bytes -> option Z; duration_of : bytes -> option Z; known_db : bytes -> bool }.
Definition blank_text (s : bytes) : bool := match s with [] => true | _ => false end.
Definition command_options (W : outside) (c : command) (args : list bytes) : outcome options :=
  match parse_flags (int_of W) (command_flags c) args with
  | AskedHelp => AskedHelp
  | Wrong => Wrong
  | Done (vs, rest) =>
      if needs_db c && (blank_text (text_flag vs (B"db")) || negb (known_db W (text_flag vs (B"db")))) then Wrong
      else if needs_dir c && blank_text (text_flag vs (B"dir")) then Wrong
      else match durations (duration_of W) vs (time_flags c) with
           | None => Wrong
           | Some ts => Done (Options vs (map (fun n => (n, split_list (text_flag vs n))) (list_flags c)) ts (files_of c (text_flag vs (B"dir")) rest))
           end
  end.

(** ** main.go *)
Definition command_name (s : bytes) : option command :=
  if beqb s (B"migrate") then Some Migrate else if beqb s (B"ls") then Some Ls else if beqb s (B"touch") then Some Touch
  else if beqb s (B"rm") then Some Rm else if beqb s (B"mv") then Some Mv else if beqb s (B"tables") then Some Tables
  else if beqb s (B"views") then Some Views else if beqb s (B"generate") then Some Generate else if beqb s (B"wipe") then Some Wipe
  else if beqb s (B"dump") then Some Dump else if beqb s (B"load") then Some Load else if beqb s (B"automigrate") then Some Automigrate
  else None.
Definition global_flags : list (bytes * fval) := [str "db" ""; str "history-table" ""].
(** Which command is created and run with which options, and the exit status. [run] says whether a command was run without
    an error. *)
Definition main_args (W : outside) (args : list bytes) : outcome (option (bytes * list bytes)) :=
  match parse_flags (int_of W) global_flags args with
  | AskedHelp => AskedHelp
  | Wrong => Wrong
  | Done (_, []) => Done None
  | Done (_, sub :: rest) => Done (Some (sub, firstn (List.length args - List.length (sub :: rest)) args ++ rest))
  end.
Record ending := Ending { e_run : option (command * options); e_status : nat }.
Definition main_ending (W : outside) (run : command -> options -> bool) (args : list bytes) : ending :=
  match main_args W args with
  | AskedHelp => Ending None 0
  | Wrong => Ending None 1
  | Done None => Ending None 0
  | Done (Some (sub, args')) =>
      match command_name sub with
      | None => Ending None 0
      | Some c =>
          match command_options W c args' with
          | AskedHelp => Ending None 0
          | Wrong => Ending None 1
          | Done o => Ending (Some (c, o)) (if run c o then 0 else 1)
          end
      end
  end.
