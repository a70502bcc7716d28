(** The values of -src and -dest, after sqddl.md:585-597: what is named by a value, and what it
    adds to the schema. *)
From Verif Require Import GoStr ModelCatalog ModelDsn ModelTables ModelSources.

Inductive value := Database (url : bytes) | GoSource (name : bytes) | JsonFile (name : bytes) | Folder (name : bytes)
| Archive (name ext : bytes).
Definition text (v : value) : bytes :=
  match v with
  | Database u => u
  | GoSource n => n ++ B".go"
  | JsonFile n => n ++ B".json"
  | Folder n => n
  | Archive n e => n ++ e
  end.
Definition extensions : list bytes := [B".json"; B".go"; B".go.txt"; B".zip"; B".tgz"; B".tar.gz"; B".tar.gzip"].
Definition ends_in (s e : bytes) : Prop := exists a, s = a ++ e.
(** A value as described: databases and directories are not called like files. *)
Definition documented {C} (T : tools C) (v : value) : Prop :=
  match v with
  | Database u => (forall e, In e extensions -> ~ ends_in u e) /\ open_ T u <> Folder_ /\ normalize_dsn (t_file T) u <> None
  | Folder n => n <> [] /\ (forall e, In e extensions -> ~ ends_in n e) /\ open_ T n = Folder_
  | Archive n e => In e [B".zip"; B".tgz"; B".tar.gz"; B".tar.gzip"]
  | _ => True
  end.
(** The top-level schema.json of an archive. *)
Definition top_level (e : bytes * bytes) : bool := beqb (fst e) (B"schema.json") || beqb (fst e) (B"./schema.json").
Definition unpack {C} (T : tools C) (ext content : bytes) : option (list (bytes * bytes)) :=
  if beqb ext (B".zip") then t_unzip T content else t_untar T content.
Definition adds {C} (T : tools C) (history : bytes) (v : value) (cat : C) : result C :=
  let json name := match open_ T name with File_ c => t_json T c cat | _ => Err end in
  match v with
  | Database u => match normalize_dsn (t_file T) u with Some (d, dsn) => t_database T d dsn history cat | None => Err end
  | GoSource n => match open_ T (n ++ B".go") with File_ c => t_go T c cat | _ => Err end
  | JsonFile n => json (n ++ B".json")
  | Folder n => json (n ++ B"/schema.json")
  | Archive n e =>
      match open_ T (n ++ e) with
      | File_ c =>
          match unpack T e c with
          | Some es => match find top_level es with Some en => t_json T (snd en) cat | None => Err end
          | None => Err
          end
      | _ => Err
      end
  end.
Fixpoint adds_all {C} (T : tools C) (history : bytes) (vs : list value) (cat : C) : result C :=
  match vs with
  | [] => Ok cat
  | v :: vs' => match adds T history v cat with Ok cat' => adds_all T history vs' cat' | Err => Err | Panic => Panic end
  end.
(** Archives whose first file called schema.json is the one at the top. *)
Definition is_schema_json (e : bytes * bytes) : Prop := base (fst e) = B"schema.json".
(** Other files; in zip archives also those that macOS adds. *)
Definition other_file (ext : bytes) (x : bytes * bytes) : Prop :=
  ~ is_schema_json x \/ (ext = B".zip" /\ exists r, fst x = B"__MACOSX/" ++ r).
Definition top_first {C} (T : tools C) (v : value) : Prop :=
  match v with
  | Archive n e => forall c es, open_ T (n ++ e) = File_ c -> unpack T e c = Some es ->
      (exists es1 en es2, es = es1 ++ en :: es2 /\ top_level en = true /\ Forall (other_file e) es1)
      \/ Forall (other_file e) es
  | _ => True
  end.
Definition no_comma (v : value) : Prop := ~ In ","%char (text v).
