(** Model of /repo/main.go: the flags before the subcommand, their forwarding,
    and the exit status; and of the part of Go's flag package that it and the
    subcommands use.

    What a subcommand does with its flags and arguments is given by [run]. *)
From Verif Require Import GoStr.

(** The kinds of flags: flagset.StringVar and flagset.Var, BoolVar, IntVar. *)
Inductive kind := KString | KBool | KInt.
(** strconv.ParseBool. *)
Definition bool_ok (v : bytes) : bool :=
  bmem v (map B ["1"; "t"; "T"; "TRUE"; "true"; "True"; "0"; "f"; "F"; "FALSE"; "false"; "False"]%string).
(** flag.Value.Set succeeds; [int_ok] are the texts that strconv.ParseInt(s, 0, 64) takes. *)
Definition value_ok (int_ok : bytes -> bool) (k : kind) (v : bytes) : bool :=
  match k with KString => true | KBool => bool_ok v | KInt => int_ok v end.

(** One argument, flag.(FlagSet).parseOne. *)
Inductive arg := NotFlag | Terminator | BadSyntax | Flag (name : bytes) (value : option bytes).
Definition minus : ascii := "-"%char.
Definition equals : ascii := "="%char.
Definition flag_of (s : bytes) : arg :=
  match s with
  | c :: d :: t =>
      if ceqb c minus then
        if ceqb d minus && match t with [] => true | _ => false end then Terminator
        else
          let name := if ceqb d minus then t else d :: t in
          match name with
          | [] => BadSyntax
          | n :: r =>
              if ceqb n minus || ceqb n equals then BadSyntax
              else match cut_byte equals name with
                   | Some (a, v) => Flag a (Some v)
                   | None => Flag name None
                   end
          end
      else NotFlag
  | _ => NotFlag
  end.
(** The outcome of flagset.Parse: the settings in their order and the
    arguments that are left, or flag.ErrHelp, or another error. *)
Definition settings := list (bytes * bytes).
Inductive parsed := Parsed (s : settings) (args : list bytes) | HelpAsked | Wrong.
Definition add (s : bytes * bytes) (p : parsed) : parsed :=
  match p with Parsed l args => Parsed (s :: l) args | _ => p end.
Fixpoint parse (int_ok : bytes -> bool) (flags : bytes -> option kind) (args : list bytes) : parsed :=
  match args with
  | [] => Parsed [] []
  | s :: rest =>
      match flag_of s with
      | NotFlag => Parsed [] args
      | Terminator => Parsed [] rest
      | BadSyntax => Wrong
      | Flag name value =>
          match flags name with
          | None => if beqb name (B"help") || beqb name (B"h") then HelpAsked else Wrong
          | Some k =>
              match k, value with
              | _, Some v => if value_ok int_ok k v then add (name, v) (parse int_ok flags rest) else Wrong
              | KBool, None => add (name, B"true") (parse int_ok flags rest)
              | _, None =>
                  match rest with
                  | v :: rest' => if value_ok int_ok k v then add (name, v) (parse int_ok flags rest') else Wrong
                  | [] => Wrong
                  end
              end
          end
      end
  end.

(** The flags: main.go:46-47; migrate_cmd.go:91-99, ls_cmd.go:64-71,
    touch_cmd.go:62-64, rm_cmd.go:49-51, mv_cmd.go:51-53, tables_cmd.go:62-70,
    views_cmd.go:53-60, generate_cmd.go:85-94, wipe_cmd.go:44-46,
    dump_cmd.go:113-129, load_cmd.go:104-113, automigrate_cmd.go:87-97. *)
Definition flag_list := list (string * kind).
Definition globals : flag_list := [("db", KString); ("history-table", KString)]%string.
Definition command_flags : list (string * flag_list) :=
  [("migrate", [("db", KString); ("dir", KString); ("history-table", KString); ("lock-timeout", KString); ("max-attempts", KInt);
                ("max-delay", KString); ("base-delay", KString); ("verbose", KBool); ("skip-history-table", KBool)]);
   ("ls", [("db", KString); ("dir", KString); ("history-table", KString); ("pending", KBool); ("applied", KBool); ("failed", KBool);
           ("missing", KBool); ("all", KBool)]);
   ("touch", [("db", KString); ("dir", KString); ("history-table", KString)]);
   ("rm", [("db", KString); ("dir", KString); ("history-table", KString)]);
   ("mv", [("db", KString); ("dir", KString); ("history-table", KString)]);
   ("tables", [("db", KString); ("history-table", KString); ("pkg", KString); ("file", KString); ("schema-qualified-structs", KBool);
               ("schemas", KString); ("exclude-schemas", KString); ("tables", KString); ("exclude-tables", KString)]);
   ("views", [("db", KString); ("history-table", KString); ("pkg", KString); ("file", KString);
              ("schemas", KString); ("exclude-schemas", KString); ("views", KString); ("exclude-views", KString)]);
   ("generate", [("db", KString); ("src", KString); ("dest", KString); ("output-dir", KString); ("history-table", KString); ("prefix", KString);
                 ("drop-objects", KBool); ("dialect", KString); ("accept-warnings", KBool); ("dry-run", KBool)]);
   ("wipe", [("db", KString); ("history-table", KString); ("dry-run", KBool)]);
   ("dump", [("db", KString); ("output-dir", KString); ("history-table", KString); ("zip", KString); ("tgz", KString); ("schema-only", KBool);
             ("data-only", KBool); ("nullstring", KString); ("binaryprefix", KString); ("schemas", KString); ("exclude-schemas", KString);
             ("tables", KString); ("exclude-tables", KString); ("subset", KString); ("extended-subset", KString); ("array-as-json", KBool);
             ("uuid-as-bytes", KBool)]);
   ("load", [("db", KString); ("dir", KString); ("history-table", KString); ("nullstring", KString); ("binaryprefix", KString); ("batchsize", KInt);
             ("no-nullstring", KBool); ("no-binaryprefix", KBool); ("verbose", KBool); ("timestamp-as-integer", KBool)]);
   ("automigrate", [("db", KString); ("dir", KString); ("dest", KString); ("history-table", KString); ("drop-objects", KBool);
                    ("accept-warnings", KBool); ("dry-run", KBool); ("lock-timeout", KString); ("max-attempts", KInt); ("max-delay", KString);
                    ("base-delay", KString)])]%string.
Fixpoint look {A} (l : list (string * A)) (name : bytes) : option A :=
  match l with [] => None | (n, a) :: l' => if beqb (B n) name then Some a else look l' name end.

(** What happens: a subcommand is run with flags and arguments, and the exit status. *)
Record outcome := { ran : option (bytes * settings * list bytes); status : nat }.
Definition nothing (n : nat) : outcome := {| ran := None; status := n |}.
(** main.go:81-202: one subcommand with its arguments.  [run] says whether its constructor and its Run return no error. *)
Definition subcommand (int_ok : bytes -> bool) (run : bytes -> settings -> list bytes -> bool) (sub : bytes) (args : list bytes) : outcome :=
  match look command_flags sub with
  | None => nothing 0
  | Some fs =>
      match parse int_ok (look fs) args with
      | HelpAsked => nothing 0
      | Wrong => nothing 1
      | Parsed s rest => {| ran := Some (sub, s, rest); status := if run sub s rest then 0 else 1 |}
      end
  end.
(** main.go:44-79: [args] is os.Args[1:]. *)
Definition main (int_ok : bytes -> bool) (run : bytes -> settings -> list bytes -> bool) (args : list bytes) : outcome :=
  match parse int_ok (look globals) args with
  | HelpAsked => nothing 0
  | Wrong => nothing 1
  | Parsed _ [] => nothing 0
  | Parsed _ (sub :: rest) =>
      let n := List.length args - List.length (sub :: rest) in
      subcommand int_ok run sub (firstn n args ++ rest)
  end.
