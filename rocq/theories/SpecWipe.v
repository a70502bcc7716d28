(** What the statements of wipe mean to the databases, and what a wiped database is. *)
From Verif Require Import GoStr SpecSql ModelHistory ModelMigrate SpecInsert ModelWipe.

(** ** Reading *)
Inductive dstmt :=
| XView (materialized : bool) (p : list bytes) (cascade : bool)
| XFk (p : list bytes) (name : bytes) (cascade : bool)
| XDefer
| XTable (p : list bytes) (cascade : bool)
| XRoutine (procedure : bool) (p : list bytes) (cascade : bool)
| XType (p : list bytes) (cascade : bool)
| XDomain (p : list bytes) (cascade : bool)
| XExt (name : bytes) (cascade : bool).
Definition read_cascade (s : bytes) : bool * bytes := match strip_prefix (B" CASCADE") s with Some r => (true, r) | None => (false, s) end.
Definition read_end {A} (a : A) (s : bytes) : option (A * bytes) := let? r := strip_prefix (B";" ++ [LF]) s in Some (a, r).
Definition read_drop (d : dialect) (f : list bytes -> bool -> dstmt) (s : bytes) : option (dstmt * bytes) :=
  let? (p, r) := read_path d s in let '(c, r) := read_cascade r in read_end (f p c) r.
Definition read_dstmt (d : dialect) (s : bytes) : option (dstmt * bytes) :=
  match strip_prefix (B"DROP VIEW IF EXISTS ") s with Some r => read_drop d (XView false) r | None =>
  match strip_prefix (B"DROP MATERIALIZED VIEW IF EXISTS ") s with Some r => read_drop d (XView true) r | None =>
  match strip_prefix (B"DROP TABLE IF EXISTS ") s with Some r => read_drop d XTable r | None =>
  match strip_prefix (B"DROP PROCEDURE IF EXISTS ") s with Some r => read_drop d (XRoutine true) r | None =>
  match strip_prefix (B"DROP FUNCTION IF EXISTS ") s with Some r => read_drop d (XRoutine false) r | None =>
  match strip_prefix (B"DROP TYPE IF EXISTS ") s with Some r => read_drop d XType r | None =>
  match strip_prefix (B"DROP DOMAIN IF EXISTS ") s with Some r => read_drop d XDomain r | None =>
  match strip_prefix (B"DROP EXTENSION IF EXISTS ") s with
  | Some r => let? (n, r) := lex_ident d r in let '(c, r) := read_cascade r in read_end (XExt n c) r
  | None =>
  match strip_prefix (B"ALTER TABLE ") s with
  | Some r =>
      let? (p, r) := read_path d r in let? r := strip_prefix (B" DROP CONSTRAINT ") r in
      let? (n, r) := lex_ident d r in let '(c, r) := read_cascade r in read_end (XFk p n c) r
  | None =>
      let? r := strip_prefix (B"PRAGMA defer_foreign_keys = 1") s in read_end XDefer r
  end end end end end end end end end.
(** A script: statements, with an empty line in between. *)
Definition read_script (d : dialect) (s : bytes) : option (list dstmt) :=
  match s with
  | [] => Some []
  | _ => let? (l, r) := items (read_dstmt d) [LF] s in match r with [] => Some l | _ => None end
  end.

(** ** Executing *)
Definition kind_eqb (a b : routine_kind) : bool :=
  match a, b with Function, Function | Procedure, Procedure | Aggregate, Aggregate | WindowFunction, WindowFunction => true | _, _ => false end.
Definition obj_eqb (a b : obj) : bool :=
  match a, b with
  | OView s n m, OView s' n' m' => beqb s s' && beqb n n' && Bool.eqb m m'
  | OFk s t n, OFk s' t' n' => beqb s s' && beqb t t' && beqb n n'
  | OTable s n p, OTable s' n' p' => beqb s s' && beqb n n' && Bool.eqb p p'
  | ORoutine s n a k, ORoutine s' n' a' k' => beqb s s' && beqb n n' && beqb a a' && kind_eqb k k'
  | OEnum s n, OEnum s' n' => beqb s s' && beqb n n'
  | ODomain s n, ODomain s' n' => beqb s s' && beqb n n'
  | OExt n, OExt n' => beqb n n'
  | _, _ => false
  end.
Definition is_fk (o : obj) : bool := match o with OFk _ _ _ => true | _ => false end.
(** A foreign key belongs to its table. *)
Definition owned (x o : obj) : bool :=
  match x, o with OFk s t _, OTable s' t' _ => beqb s s' && beqb t t' | _, _ => false end.
(** [dep x o]: [x] depends on [o], directly or not.  [held o] is the object that requires [o]:
    the extension that created it, or the constraint it is inherited from. *)
Record deps := Deps { dep : obj -> obj -> bool; held : obj -> option obj }.
Definition held_by (k : deps) (x o : obj) : bool := match held k x with Some h => obj_eqb h o | None => false end.
(** What disappears with an object: what depends on it, and what an extension has created that
    disappears. *)
Definition gone_with (k : deps) (x o : obj) : bool :=
  dep k x o || held_by k x o || match held k x with Some h => dep k h o | None => false end.
(** Dropping an object: Postgres refuses for objects that another one requires, and for objects
    on which others depend, unless they are to be dropped too.  SQL Server refuses for objects on
    which others depend, MySQL for tables to which foreign keys of other tables refer.  In SQLite
    the check of the foreign keys is deferred. *)
Definition drop (d : dialect) (k : deps) (casc : bool) (o : obj) (l : list obj) : option (list obj) :=
  let without := filter (fun x => negb (obj_eqb x o) && negb (owned x o)) l in
  match d with
  | Postgres =>
      match held k o with
      | Some _ => None
      | None =>
          if casc then Some (filter (fun x => negb (gone_with k x o)) without)
          else if existsb (fun x => dep k x o) without then None
          else Some (filter (fun x => negb (held_by k x o)) without)
      end
  | MySQL => if existsb (fun x => is_fk x && dep k x o) without then None else Some without
  | SQLServer => if existsb (fun x => dep k x o) without then None else Some without
  | _ => Some without
  end.
Definition path_name (cur : bytes) (p : list bytes) : option (bytes * bytes) :=
  match p with [n] => Some (cur, n) | [s; n] => Some (s, n) | _ => None end.
(** Views and tables have their names in common. *)
Definition named (d : dialect) (x : dstmt) (s n : bytes) (o : obj) : bool :=
  match x, o with
  | XView _ _ _, OView s' n' _ | XView _ _ _, OTable s' n' _
  | XTable _ _, OView s' n' _ | XTable _ _, OTable s' n' _
  | XType _ _, OEnum s' n' | XType _ _, ODomain s' n'
  | XDomain _ _, ODomain s' n' | XDomain _ _, OEnum s' n' => beqb s' s && beqb n' n
  | XRoutine p _ _, ORoutine s' n' _ k =>
      beqb s' s && beqb n' n && match d with MySQL => Bool.eqb p (kind_eqb k Procedure) | _ => true end
  | _, _ => false
  end.
(** The right kind of statement for the object. *)
Definition fits (x : dstmt) (o : obj) : bool :=
  match x, o with
  | XView m _ _, OView _ _ m' => Bool.eqb m m'
  | XTable _ _, OTable _ _ _ => true
  | XType _ _, OEnum _ _ => true
  | XDomain _ _, ODomain _ _ => true
  | XRoutine p _ _, ORoutine _ _ _ Procedure => p
  | XRoutine p _ _, ORoutine _ _ _ Function | XRoutine p _ _, ORoutine _ _ _ WindowFunction => negb p
  | _, _ => false
  end.
(** Dropping by name, if it exists: it has to be the only one of that name, of the right kind. *)
Definition drop_named (d : dialect) (k : deps) (cur : bytes) (x : dstmt) (p : list bytes) (casc : bool) (l : list obj) : option (list obj) :=
  let? (s, n) := path_name cur p in
  match filter (named d x s n) l with
  | [] => Some l
  | [o] => if fits x o then drop d k casc o l else None
  | _ => None
  end.
(** The dialects that know a statement, and the word CASCADE in it. *)
Definition allowed (d : dialect) (x : dstmt) : bool :=
  match x, d with
  | XView m _ c, Postgres => true
  | XView m _ c, MySQL => negb m
  | XView m _ c, _ => negb m && negb c
  | XFk _ _ c, Postgres => true
  | XFk _ _ c, MySQL | XFk _ _ c, SQLServer => negb c
  | XDefer, SQLite => true
  | XTable _ c, Postgres | XTable _ c, MySQL => true
  | XTable _ c, _ => negb c
  | XRoutine _ _ c, Postgres => true
  | XRoutine _ _ c, MySQL | XRoutine _ _ c, SQLServer => negb c
  | XType _ _, Postgres | XDomain _ _, Postgres | XExt _ _, Postgres => true
  | _, _ => false
  end.
Definition exec1 (d : dialect) (k : deps) (cur : bytes) (x : dstmt) (l : list obj) : option (list obj) :=
  if allowed d x then
    match x with
    | XView _ p c | XTable p c | XRoutine _ p c | XType p c | XDomain p c => drop_named d k cur x p c l
    | XFk p n c =>
        let? (s, t) := path_name cur p in
        if existsb (obj_eqb (OFk s t n)) l then drop d k c (OFk s t n) l else None
    | XDefer => Some l
    | XExt n c => if existsb (obj_eqb (OExt n)) l then drop d k c (OExt n) l else Some l
    end
  else None.
(** One after the other up to the first error. *)
Fixpoint exec_all (d : dialect) (k : deps) (cur : bytes) (xs : list dstmt) (l : list obj) : bool * list obj :=
  match xs with
  | [] => (true, l)
  | x :: xs' => match exec1 d k cur x l with Some l' => exec_all d k cur xs' l' | None => (false, l) end
  end.
Definition server (d : dialect) (k : deps) (cur s : bytes) (l : list obj) : bool * list obj :=
  match read_script d s with Some xs => exec_all d k cur xs l | None => (false, l) end.

(** ** The expected result *)
(** What belongs to plpgsql is not to be dropped. *)
Definition of_plpgsql (k : deps) (o : obj) : Prop := o = OExt (B"plpgsql") \/ held k o = Some (OExt (B"plpgsql")).
(** The objects of the database the command is about: those of the system are not, and in MySQL
    only those of the database of the connection. *)
Definition schema_of (o : obj) : bytes :=
  match o with OView s _ _ | OFk s _ _ | OTable s _ _ | ORoutine s _ _ _ | OEnum s _ | ODomain s _ => s | OExt _ => [] end.
Definition of_user (d : dialect) (cur : bytes) (o : obj) : Prop :=
  match d with
  | Postgres => schema_of o <> B"information_schema" /\ ~ has_prefix (schema_of o) (B"pg_") = true
  | MySQL => schema_of o = cur
  | _ => True
  end.
(** Names that are read as they are meant (C02). *)
Definition plain_name (d : dialect) (n : bytes) : Prop :=
  ~ In n (map B ["EXCLUDED"; "INSERTED"; "DELETED"; "NEW"; "OLD"]%string)
  /\ ~ exists a c b, n = a ++ id_close d :: id_close d :: c :: b.
Definition names_of (o : obj) : list bytes :=
  match o with
  | OView s n _ | OTable s n _ | ORoutine s n _ _ | OEnum s n | ODomain s n => [s; n]
  | OFk s t n => [s; t; n]
  | OExt n => [n]
  end.
(** The kinds of objects there are in each database. *)
Definition exists_in (d : dialect) (o : obj) : Prop :=
  match d, o with
  | Postgres, _ => True
  | Other, _ => False
  | _, OView _ _ m => m = false
  | _, OTable _ _ _ => True
  | SQLite, _ => False                (* foreign keys are part of the tables *)
  | _, OFk _ _ _ => True
  | _, ORoutine _ _ _ k => k = Function \/ k = Procedure
  | _, _ => False
  end.
(** Objects that the databases tell apart by their names. *)
Definition same_name (d : dialect) (a b : obj) : bool :=
  match a, b with
  | OView s n _, OView s' n' _ | OView s n _, OTable s' n' _ | OTable s n _, OView s' n' _ | OTable s n _, OTable s' n' _
  | OEnum s n, OEnum s' n' | OEnum s n, ODomain s' n' | ODomain s n, OEnum s' n' | ODomain s n, ODomain s' n' => beqb s s' && beqb n n'
  | ORoutine s n _ k, ORoutine s' n' _ k' => beqb s s' && beqb n n' && match d with MySQL => Bool.eqb (kind_eqb k Procedure) (kind_eqb k' Procedure) | _ => true end
  | _, _ => false
  end.
(** Names that need no quotation marks in Postgres as far as upper case, spaces and dots go. *)
Definition lower_name (n : bytes) : Prop :=
  n <> [] /\ to_lower n = n /\ ~ In "."%char n /\ (forall c, In c n -> nat_of_ascii c <> 32 /\ ~ (9 <= nat_of_ascii c <= 13)) /\ (forall r, n <> ascii_of_nat 34 :: r).
(** Objects that the command overlooks, or whose listing fails. *)
Definition overlooked (d : dialect) (o : obj) : Prop :=
  match d, o with
  | Postgres, OTable _ _ true => True
  | Postgres, ORoutine _ _ _ Aggregate => True
  | Postgres, OExt _ => False
  | Postgres, OView s n _ => ~ (lower_name s /\ lower_name n) \/ s = B"information_schema" \/ exists c r, s = B"pg" ++ c :: r
  | Postgres, _ => schema_of o = B"information_schema" \/ exists c r, schema_of o = B"pg" ++ c :: r
  | MySQL, ORoutine _ _ [] _ => True
  | MySQL, _ => In (schema_of o) (map B ["mysql"; "information_schema"; "performance_schema"; "sys"]%string)
  | SQLServer, OView _ n _ | SQLServer, OTable _ n _ => (exists c r, to_lower n = B"spt" ++ c :: r) \/ (exists c r, to_lower n = B"msreplication" ++ c :: r)
  | SQLServer, ORoutine _ n _ _ => exists c r, to_lower n = B"sp" ++ c :: r
  | SQLite, OView _ n _ | SQLite, OTable _ n _ => exists c r, to_lower n = B"sqlite" ++ c :: r
  | _, _ => False
  end.
(** A database that can be wiped. *)
Record wipeable (d : dialect) (k : deps) (cur : bytes) (l : list obj) : Prop := {
  wp_kinds : forall o, In o l -> exists_in d o;
  wp_schemas : forall o, In o l -> (forall n, o <> OExt n) -> schema_of o = [] -> cur = [];
  wp_names : forall o n, In o l -> In n (names_of o) -> plain_name d n;
  wp_nodup : NoDup l;
  (* no overloaded routines *)
  wp_unique : forall a b, In a l -> In b l -> same_name d a b = true -> a = b;
  wp_listed : forall o, In o l -> (forall e, held k o <> Some (OExt e)) -> ~ overlooked d o;
  (* extensions create nothing but routines; no inherited constraints *)
  wp_held : forall o h, In o l -> held k o = Some h -> d = Postgres -> (exists e, h = OExt e /\ In h l) /\ exists s n a x, o = ORoutine s n a x;
  wp_extless : d <> Postgres -> forall o, held k o = None;
  (* foreign keys depend on no views and no other foreign keys *)
  wp_fks : forall s t n o, dep k (OFk s t n) o = true -> match o with OView _ _ _ | OFk _ _ _ => False | _ => True end;
  wp_mysql : d = MySQL -> forall s t n o, dep k (OFk s t n) o = true -> exists s' n' p, o = OTable s' n' p;
  (* no schema binding *)
  wp_unbound : d = SQLServer -> forall x o, dep k x o = true -> is_fk x = true /\ exists s n p, o = OTable s n p }.
(** Whether an extension created the object. *)
Definition created (k : deps) (o : obj) : bool := match held k o with Some (OExt _) => true | _ => false end.
(** What any database fulfils: unlike [wipeable] it may have overloaded routines, objects of
    extensions, schema binding and names that look like those of the system. *)
Record database (d : dialect) (k : deps) (cur : bytes) (l : list obj) : Prop := {
  db_kinds : forall o, In o l -> exists_in d o;
  db_schemas : forall o, In o l -> (forall n, o <> OExt n) -> schema_of o = [] -> cur = [];
  db_names : forall o n, In o l -> In n (names_of o) -> plain_name d n;
  db_nodup : NoDup l;
  db_unique : forall a b, In a l -> In b l -> same_name d a b = true ->
    match a, b with ORoutine _ _ x _, ORoutine _ _ y _ => x = y | _, _ => True end -> a = b;
  db_held : forall o h, In o l -> held k o = Some h -> In h l;
  db_user : forall o, In o l -> d <> MySQL -> of_user d cur o }.
(** The object a statement is about. *)
Definition about (cur : bytes) (x : dstmt) (o : obj) : Prop :=
  match x, o with
  | XView m p _, OView s n m' => path_name cur p = Some (s, n) /\ m = m'
  | XFk p c _, OFk s t n => path_name cur p = Some (s, t) /\ c = n
  | XTable p _, OTable s n _ => path_name cur p = Some (s, n)
  | XRoutine pr p _, ORoutine s n _ k => path_name cur p = Some (s, n) /\ pr = kind_eqb k Procedure
  | XType p _, OEnum s n => path_name cur p = Some (s, n)
  | XDomain p _, ODomain s n => path_name cur p = Some (s, n)
  | XExt n _, OExt n' => n = n'
  | _, _ => False
  end.
(** The order in which kinds of objects are to be dropped. *)
Definition rank (x : dstmt) : nat :=
  match x with XView _ _ _ => 0 | XFk _ _ _ => 1 | XDefer => 2 | XTable _ _ => 3 | XRoutine _ _ _ => 4 | XType _ _ => 5 | XDomain _ _ => 6 | XExt _ _ => 7 end.
(** Objects of the system. *)
Definition of_system (d : dialect) (o : obj) : Prop :=
  match d, o with
  | Postgres, OExt n => n = B"plpgsql"
  | Postgres, _ => schema_of o = B"information_schema" \/ has_prefix (schema_of o) (B"pg_") = true
  | MySQL, _ => In (schema_of o) (map B ["mysql"; "information_schema"; "performance_schema"; "sys"]%string)
  | SQLite, OView _ n _ | SQLite, OTable _ n _ => has_prefix (to_lower n) (B"sqlite_") = true
  | _, _ => False
  end.
(** The command fails and nothing is dropped; the command succeeds and an object of the user is
    left. *)
Definition fails (d : dialect) (k : deps) (cur : bytes) (l : list obj) : Prop :=
  exists t, wipe (server d k cur) true true true d false (introspect d cur (created k) l) l = (Failed, t, l).
Definition leaves (d : dialect) (cur : bytes) (o : obj) : Prop :=
  exists k l l', database d k cur l /\ of_user d cur o /\ ~ of_plpgsql k o /\ In o l'
    /\ wipe (server d k cur) true true true d false (introspect d cur (created k) l) l = (Done, [], l').
