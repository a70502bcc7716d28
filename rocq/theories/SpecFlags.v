(** Specification for C115, and more for C95 and C96: how options are written on a command line and what they mean. *)
From Verif Require Import GoStr ModelHistory ModelFlags.

(** ** Options *)
(** A name of an option: it does not begin with a dash and has no equals sign. *)
Definition option_name (n : bytes) : Prop := n <> [] /\ hd_error n <> Some "-"%char /\ ~ In "="%char n.
Definition dashes (d : bytes) : Prop := d = B"-" \/ d = B"--".
(** [written is_bool n v w]: the arguments [w] give the option [n] the value [v]; options that are on or off need no value. *)
Inductive written (is_bool : bytes -> Prop) : bytes -> bytes -> list bytes -> Prop :=
| written_equal d n v : dashes d -> option_name n -> written is_bool n v [d ++ n ++ B"=" ++ v]
| written_apart d n v : dashes d -> option_name n -> ~ is_bool n -> written is_bool n v [d ++ n; v]
| written_alone d n : dashes d -> option_name n -> is_bool n -> written is_bool n (B"true") [d ++ n].
(** [line is_bool ss files w]: [w] gives the options [ss] and then the file names [files]. *)
Definition looks_like_file (s : bytes) : Prop := s = B"-" \/ hd_error s <> Some "-"%char.
Inductive line (is_bool : bytes -> Prop) : list (bytes * bytes) -> list bytes -> list bytes -> Prop :=
| line_none : line is_bool [] [] []
| line_files f files : looks_like_file f -> line is_bool [] (f :: files) (f :: files)
| line_dashes files : line is_bool [] files (B"--" :: files)
| line_option n v w ss files r : written is_bool n v w -> line is_bool ss files r -> line is_bool ((n, v) :: ss) files (w ++ r).

(** ** Their values *)
Definition values_for (n : bytes) (ss : list (bytes * bytes)) : list bytes := map snd (filter (fun p => beqb (fst p) n) ss).
Definition true_texts : list bytes := map B ["1"; "t"; "T"; "true"; "TRUE"; "True"]%string.
Definition false_texts : list bytes := map B ["0"; "f"; "F"; "false"; "FALSE"; "False"]%string.
(** [worth int_of default vals x]: an option with this default that is given the values [vals] is worth [x]: the last value
    counts; options that may be repeated collect them. *)
Inductive worth (int_of : bytes -> option Z) : fval -> list bytes -> fval -> Prop :=
| worth_default d : worth int_of d [] d
| worth_text s vals v : worth int_of (FStr s) (vals ++ [v]) (FStr v)
| worth_true b vals v : In v true_texts -> worth int_of (FBool b) (vals ++ [v]) (FBool true)
| worth_false b vals v : In v false_texts -> worth int_of (FBool b) (vals ++ [v]) (FBool false)
| worth_number z vals v x : int_of v = Some x -> worth int_of (FInt z) (vals ++ [v]) (FInt x)
| worth_list l vals : worth int_of (FList l) vals (FList (l ++ vals)).
(** Every value makes sense. *)
Definition sensible (int_of : bytes -> option Z) (d : fval) (v : bytes) : Prop :=
  match d with FStr _ | FList _ => True | FBool _ => In v true_texts \/ In v false_texts | FInt _ => int_of v <> None end.
Definition is_flag (defs : list (bytes * fval)) (n : bytes) : Prop := In n (map fst defs).
Definition is_switch (defs : list (bytes * fval)) (n : bytes) : Prop := exists b, In (n, FBool b) defs.
Definition known_options (int_of : bytes -> option Z) (defs : list (bytes * fval)) (ss : list (bytes * bytes)) : Prop :=
  forall n v, In (n, v) ss -> exists d, In (n, d) defs /\ sensible int_of d v.
(** The values of all options. *)
Definition meant (int_of : bytes -> option Z) (defs : list (bytes * fval)) (ss : list (bytes * bytes)) (vs : list (bytes * fval)) : Prop :=
  Forall2 (fun d x => fst x = fst d /\ worth int_of (snd d) (values_for (fst d) ss) (snd x)) defs vs.

(** ** The subcommands *)
(** The options that the help texts call required. *)
Definition required_options (c : command) : list bytes :=
  match c with
  | Migrate | Ls | Touch => [B"db"; B"dir"]
  | Generate => []
  | _ => [B"db"]
  end.
(** The options by name, with their defaults and the commands that have them. *)
Definition all_commands : list command := [Migrate; Ls; Touch; Rm; Mv; Tables; Views; Generate; Wipe; Dump; Load; Automigrate].
Definition text_options : list (string * string * list command) :=
  [("db", "", all_commands); ("history-table", "sqddl_history", [Migrate; Ls; Touch; Rm; Mv; Tables; Generate; Dump; Load; Automigrate]); ("history-table", "", [Views; Wipe]);
   ("dir", "", [Migrate; Ls; Touch; Rm; Mv; Load; Automigrate]);
   ("lock-timeout", "1s", [Migrate; Automigrate]); ("max-delay", "5m", [Migrate; Automigrate]); ("base-delay", "1s", [Migrate; Automigrate]);
   ("pkg", "_", [Tables; Views]); ("file", "", [Tables; Views]); ("schemas", "", [Tables; Views; Dump]); ("exclude-schemas", "", [Tables; Views; Dump]);
   ("tables", "", [Tables; Dump]); ("exclude-tables", "", [Tables; Dump]); ("views", "", [Views]); ("exclude-views", "", [Views]);
   ("src", "", [Generate]); ("dest", "", [Generate; Automigrate]); ("output-dir", "", [Generate; Dump]); ("prefix", "", [Generate]); ("dialect", "", [Generate]);
   ("zip", "", [Dump]); ("tgz", "", [Dump]); ("nullstring", "\N", [Dump; Load]); ("binaryprefix", "0x", [Dump; Load])]%string.
Definition switch_options : list (string * list command) :=
  [("verbose", [Migrate; Load]); ("skip-history-table", [Migrate]); ("pending", [Ls]); ("applied", [Ls]); ("failed", [Ls]); ("missing", [Ls]); ("all", [Ls]);
   ("schema-qualified-structs", [Tables]); ("drop-objects", [Generate; Automigrate]); ("accept-warnings", [Generate; Automigrate]); ("dry-run", [Generate; Wipe; Automigrate]);
   ("schema-only", [Dump]); ("data-only", [Dump]); ("array-as-json", [Dump]); ("uuid-as-bytes", [Dump]); ("no-nullstring", [Load]); ("no-binaryprefix", [Load]); ("timestamp-as-integer", [Load])]%string.
Definition number_options : list (string * Z * list command) := [("max-attempts"%string, 10%Z, [Migrate; Automigrate]); ("batchsize"%string, 1000%Z, [Load])].
Definition repeated_options : list (string * list command) := [("subset", [Dump]); ("extended-subset", [Dump])]%string.
Definition documented (c : command) (n : bytes) (d : fval) : Prop :=
  (exists k t cs, In (k, t, cs) text_options /\ In c cs /\ n = B k /\ d = FStr (B t)) \/
  (exists k cs, In (k, cs) switch_options /\ In c cs /\ n = B k /\ d = FBool false) \/
  (exists k z cs, In (k, z, cs) number_options /\ In c cs /\ n = B k /\ d = FInt z) \/
  (exists k cs, In (k, cs) repeated_options /\ In c cs /\ n = B k /\ d = FList []).
(** Options that take lists of names with commas in between, and options that take times. *)
Definition comma_options : list bytes := map B ["schemas"; "exclude-schemas"; "tables"; "exclude-tables"; "views"; "exclude-views"]%string.
Definition time_options : list bytes := map B ["lock-timeout"; "max-delay"; "base-delay"]%string.
Definition comma_list (s : bytes) (l : list bytes) : Prop :=
  s = [] /\ l = [] \/ s <> [] /\ l <> [] /\ join (B",") l = s /\ forall x, In x l -> ~ In ","%char x.
Definition has_text (vs : list (bytes * fval)) (n s : bytes) : Prop := In (n, FStr s) vs.
(** The files of a command line; how their names are taken is C52. *)
Definition file_commands : list command := [Migrate; Touch; Rm; Load].
Definition files_meant (c : command) (dir : bytes) (files fs : list bytes) : Prop :=
  (In c file_commands -> Forall2 (fun f g => g = normalize_filename f dir) files fs) /\
  (c = Mv -> Forall2 (fun f g => g = normalize_filename f dir) (firstn 2 files) fs) /\
  (~ In c file_commands -> c <> Mv -> fs = []).
(** [options_for req W c ss files o]: what the options [ss] and the files mean for the command [c], of which the options
    [req] have to be given. *)
Definition options_for (req : list bytes) (W : outside) (c : command) (ss : list (bytes * bytes)) (files : list bytes) (o : options) : Prop :=
  known_options (int_of W) (command_flags c) ss /\ meant (int_of W) (command_flags c) ss (o_values o) /\
  map fst (o_lists o) = list_flags c /\ (forall n l, In (n, l) (o_lists o) -> exists s, has_text (o_values o) n s /\ comma_list s l) /\
  map fst (o_times o) = time_flags c /\ (forall n z, In (n, z) (o_times o) -> exists s, has_text (o_values o) n s /\ (if blank_text s then z = 0%Z else duration_of W s = Some z)) /\
  (forall n, In n req -> exists s, has_text (o_values o) n s /\ s <> []) /\
  (c <> Generate -> exists s, has_text (o_values o) (B"db") s /\ known_db W s = true) /\
  exists dir, (In (B"dir") (map fst (command_flags c)) -> has_text (o_values o) (B"dir") dir) /\
    files_meant c dir files (o_files o).
(** A question for help. *)
Definition help_argument (a : bytes) : Prop := exists d n, dashes d /\ (n = B"h" \/ n = B"help") /\ (a = d ++ n \/ exists t, a = d ++ n ++ B"=" ++ t).
(** The subcommands of the help text, main.go:24-36. *)
Definition called (c : command) : bytes :=
  B match c with
    | Migrate => "migrate" | Ls => "ls" | Touch => "touch" | Rm => "rm" | Mv => "mv" | Tables => "tables" | Views => "views" | Generate => "generate"
    | Wipe => "wipe" | Dump => "dump" | Load => "load" | Automigrate => "automigrate"
    end%string.
(** Only options given, one after the other. *)
Inductive settings (is_bool : bytes -> Prop) : list (bytes * bytes) -> list bytes -> Prop :=
| settings_none : settings is_bool [] []
| settings_more n v w ss r : written is_bool n v w -> settings is_bool ss r -> settings is_bool ((n, v) :: ss) (w ++ r).
Definition global (n : bytes) : Prop := n = B"db" \/ n = B"history-table".
