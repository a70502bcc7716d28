(** What load promises about the files of directories and archives (sqddl.md:976-982), and what
    a user expects of the arguments: written without the functions of the model (the type of the
    actions is shared). *)
From Verif Require Import GoStr ModelLoadFiles.

(** The elements of a file name: what is between the slashes, except nothing and ".". *)
Definition elements (p : bytes) : list bytes :=
  filter (fun e => negb (beqb e []) && negb (beqb e (B"."))) (split_byte "/"%char p).
(** The top-level file that an entry of an archive is, if it is one; [stem] is the directory that
    may be around all files (comment of load_cmd.go:571-591). *)
Definition top_file (stem : option bytes) (p : bytes) : option bytes :=
  if ceqb (last p "x"%char) "/" then None
  else match elements p, stem with
       | [f], _ => Some f
       | [s; f], Some s' => if beqb s s' then Some f else None
       | _, _ => None
       end.
Definition is_top (stem : option bytes) (f : bytes) (e : entry) : bool :=
  match top_file stem (fst e) with Some g => beqb g f | None => false end.
Definition is_top_csv (stem : option bytes) (e : entry) : bool :=
  match top_file stem (fst e) with Some g => has_suffix g (B".csv") | None => false end.

(** "First run schema.sql if it exists." *)
Definition script (stem : option bytes) (f : bytes) (es : list entry) : list action :=
  flat_map (fun e : entry => match snd e with [] => [] | c => if is_top stem f e then [RunScript c] else [] end) es.
(** "Then load all top-level CSV files.  If it is a directory or a .zip archive, the CSV files are
    loaded concurrently.  If it is a .tgz/.tar.gzip archive, CSV files are loaded one at a time."
    (In SQLite they are always loaded one at a time.) *)
Definition csvs (together : bool) (stem : option bytes) (es : list entry) : list action :=
  let l := filter (is_top_csv stem) es in
  if together then match l with [] => [] | _ => [LoadTogether l] end
  else map (fun e => LoadCsv (fst e) (snd e)) l.
Definition documented (together : bool) (stem : option bytes) (es : list entry) : list action :=
  script stem (B"schema.sql") es ++ csvs together stem es ++
  script stem (B"indexes.sql") es ++ script stem (B"constraints.sql") es.

(** "If it exists": there is at most one. *)
Definition at_most_one {A} (p : A -> bool) (l : list A) : Prop := (length (filter p l) <= 1)%nat.
Definition unambiguous (stem : option bytes) (es : list entry) : Prop :=
  forall f, In f [B"schema.sql"; B"indexes.sql"; B"constraints.sql"] -> at_most_one (is_top stem f) es.

(** ** The arguments *)
(** The files of a directory. *)
Definition files_of (l : listing) : list entry :=
  flat_map (fun x => match snd x with AFile c => [(fst x, c)] | ADirectory => [] end) l.
(** The name of an archive without directories and suffix. *)
Definition stem_is (arg suffix stem : bytes) : Prop :=
  exists dir, arg = dir ++ stem ++ suffix /\ (dir = [] \/ last dir "x"%char = "/"%char) /\ ~ In "/"%char stem.
(** What an argument stands for; nothing: it is to be refused. *)
Inductive stands_for (sqlite : bool) (arg : bytes) : node -> list action -> Prop :=
| ForScript c : has_suffix arg (B".sql") = true ->
    stands_for sqlite arg (Regular c) (match c with [] => [] | _ => [RunScript c] end)
| ForCsv c : has_suffix arg (B".csv") = true -> stands_for sqlite arg (Regular c) [LoadCsv arg c]
| ForZip stem es : stem_is arg (B".zip") stem ->
    stands_for sqlite arg (Zipped es) (documented (negb sqlite) (Some stem) es)
| ForTgz stem es : stem_is arg (B".tgz") stem \/ stem_is arg (B".tar.gz") stem ->
    stands_for sqlite arg (Tarred es) (documented false (Some stem) es)
| ForDirectory l : stands_for sqlite arg (Directory l) (documented (negb sqlite) None (files_of l)).

(** A file name as archives usually have it: elements with slashes in between, none of them "." or
    "..", and a slash at the end for a directory. *)
Definition usual_element (e : bytes) : Prop := e <> [] /\ e <> B"." /\ e <> B".." /\ ~ In "/"%char e.
Definition usual_name (p : bytes) : Prop :=
  exists cs slash, cs <> [] /\ Forall usual_element cs /\ p = join (B"/") cs ++ slash /\ (slash = [] \/ slash = B"/").

(** ** The promise *)
(** What file systems guarantee of a directory, and that archives have each script at most once. *)
Definition well_formed (arg : bytes) (n : node) : Prop :=
  match n with
  | Regular _ | Broken => True
  | Zipped es => forall stem, stem_is arg (B".zip") stem -> unambiguous (Some stem) es
  | Tarred es => forall stem, stem_is arg (B".tgz") stem \/ stem_is arg (B".tar.gz") stem -> unambiguous (Some stem) es
  | Directory l => NoDup (map fst l) /\ Forall (fun x => usual_element (fst x)) l
  end.
(** The actions of some arguments, one after the other. *)
Inductive stand_for (sqlite : bool) (fs : bytes -> option node) : list bytes -> list action -> Prop :=
| StandNil : stand_for sqlite fs [] []
| StandCons arg args n l ls : fs arg = Some n -> stands_for sqlite arg n l -> stand_for sqlite fs args ls ->
    stand_for sqlite fs (arg :: args) (l ++ ls).
(** Nothing is done that is not expected, and it is done in this order. *)
Definition in_order (sqlite : bool) (fs : bytes -> option node) (args : list bytes) (did : list action) : Prop :=
  exists args1 args2 all rest, args = args1 ++ args2 /\ stand_for sqlite fs args1 all /\ did ++ rest = all.
(** An argument that load can do something with: its name tells what it is. *)
Definition proper (arg : bytes) (n : node) : Prop :=
  let is s := has_suffix arg (B s) = true in
  let none := forall s, In s ["sql"; "csv"; "zip"; "tgz"; "tar.gz"]%string -> has_suffix arg (B("." ++ s)%string) = false in
  match n with
  | Regular _ => is ".sql"%string \/ is ".csv"%string
  | Zipped _ => is ".zip"%string
  | Tarred _ => is ".tgz"%string \/ is ".tar.gz"%string
  | Directory l => none /\ forall f, In f [B"schema.sql"; B"indexes.sql"; B"constraints.sql"] -> ~ In (f, ADirectory) l
  | Broken => False
  end.

(** Restrictions: the names of the entries are the usual ones, the archive is not called __MACOSX,
    and files are called by what they are. *)
Definition usual_node (arg : bytes) (n : node) : Prop :=
  match n with
  | Regular _ => has_suffix arg (B".sql") = true \/ has_suffix arg (B".csv") = true
  | Zipped es => has_suffix arg (B".zip") = true /\ ~ stem_is arg (B".zip") (B"__MACOSX") /\
                 Forall (fun e : entry => usual_name (fst e)) es
  | Tarred es => (has_suffix arg (B".tgz") = true \/ has_suffix arg (B".tar.gz") = true) /\ Forall (fun e : entry => usual_name (fst e)) es
  | Directory l => True
  | Broken => exists s, In s ["sql"; "csv"; "zip"; "tgz"; "tar.gz"]%string /\ has_suffix arg (B("." ++ s)%string) = true
  end.
