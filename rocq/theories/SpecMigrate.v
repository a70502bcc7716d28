(** Specification of what migrate is documented to do: which scripts are pending and
    how they are grouped into transactions. *)
From Verif Require Import GoStr ModelHistory ModelMigrate SpecDb.

(** Line endings do not matter for the checksum. *)
Fixpoint lf_only (s : bytes) : bytes :=
  match s with
  | a :: ((b :: _) as s') => if ceqb a CR && ceqb b LF then lf_only s' else a :: lf_only s'
  | _ => s
  end.

(** A repeatable script is one below repeatable/. *)
Definition is_repeatable (f : bytes) : Prop := exists g, f = B"repeatable/" ++ g.

(** The script [f] has been applied, as far as the history [h] knows: there is a
    successful row, and for a repeatable script the checksum of its present contents. *)
Definition up_to_date (c : config) (h : list row) (f : bytes) : Prop :=
  exists r, In r h /\ r_name r = f /\ r_success r = true /\
    (is_repeatable f -> exists x, c_dir c f = Some x /\ r_checksum r = Some (c_hash c (lf_only x))).

(** The pending scripts: those of [files] that are not up to date, in the same order.
    Without a history table everything is pending. *)
Inductive pending (c : config) (h : list row) : list bytes -> list bytes -> Prop :=
| pending_nil : pending c h [] []
| pending_done f fs p : c_skip_history c = false -> up_to_date c h f ->
    pending c h fs p -> pending c h (f :: fs) p
| pending_due f fs p : c_skip_history c = true \/ ~ up_to_date c h f ->
    pending c h fs p -> pending c h (f :: fs) (f :: p).

(** Transactions.  A script asks for a transaction of its own with .tx.sql and for none
    with .txoff.sql. *)
Definition asks_tx (f : bytes) : Prop := exists g, f = g ++ B".tx.sql".
Definition asks_no_tx (f : bytes) : Prop := exists g, f = g ++ B".txoff.sql".
(** A script that shares its transaction with its neighbours. *)
Definition shares (d : dialect) (f : bytes) : Prop := d <> MySQL /\ ~ asks_tx f /\ ~ asks_no_tx f.
(** A script that runs inside some transaction. *)
Definition in_transaction (d : dialect) (f : bytes) : Prop :=
  asks_tx f \/ (d <> MySQL /\ ~ asks_no_tx f).

(** The documented grouping of a list of scripts: maximal runs of sharing scripts,
    everything else alone. *)
Inductive grouping (d : dialect) : list bytes -> list (list bytes) -> Prop :=
| grouping_nil : grouping d [] []
| grouping_alone f fs gs : ~ shares d f -> grouping d fs gs -> grouping d (f :: fs) ([f] :: gs)
| grouping_last f fs gs : shares d f -> grouping d fs gs ->
    (match fs with [] => True | f' :: _ => ~ shares d f' end) ->
    grouping d (f :: fs) ([f] :: gs)
| grouping_join f f' fs g gs : shares d f -> shares d f' -> grouping d (f' :: fs) (g :: gs) ->
    grouping d (f :: f' :: fs) ((f :: g) :: gs).

(** The operations of a run in which everything succeeds. *)
Definition applies (c : config) (rows : bytes -> row) (f : bytes) : list op :=
  match c_dir c f with
  | Some x => OpExec f x :: (if c_skip_history c then [] else [OpUpsert [rows f]])
  | None => []
  end.
Inductive group_ops (c : config) (rows : bytes -> row) : list (list bytes) -> list op -> Prop :=
| group_ops_nil : group_ops c rows [] []
| group_ops_tx g gs ops : Forall (in_transaction (c_dialect c)) g -> group_ops c rows gs ops ->
    group_ops c rows (g :: gs) (OpBegin :: flat_map (applies c rows) g ++ OpCommit :: ops)
| group_ops_plain g gs ops : Forall (fun f => ~ in_transaction (c_dialect c) f) g ->
    group_ops c rows gs ops ->
    group_ops c rows (g :: gs) (flat_map (applies c rows) g ++ ops).

(** Effects of the scripts [fs] applied one after the other.  A script outside a
    transaction may have left effects of earlier attempts. *)
Inductive in_order (c : config) : list bytes -> list effect -> Prop :=
| in_order_nil : in_order c [] []
| in_order_cons f x fs tries es : c_dir c f = Some x ->
    Forall (fun e => e = Applied f x \/ e = Partly f x) tries ->
    (tries <> [] -> ~ in_transaction (c_dialect c) f) ->
    in_order c fs es -> in_order c (f :: fs) (tries ++ Applied f x :: es).

(** An effect of the script [f] itself. *)
Definition effect_of (f : bytes) (e : effect) : Prop :=
  match e with Applied g _ => g = f | Partly g _ => g = f | Undone _ _ => False end.

(** The undo script of a script: g.undo.sql for g.sql and for g.txoff.sql. *)
Inductive undo_script : bytes -> bytes -> Prop :=
| undo_txoff g : undo_script (g ++ B".txoff.sql") (g ++ B".undo.sql")
| undo_sql g : ~ (exists g', g = g' ++ B".txoff") -> undo_script (g ++ B".sql") (g ++ B".undo.sql").

(** The database did not report a lock timeout. *)
Definition no_lock (e : event) : Prop := forall a, snd e <> RErr true a.

Definition is_exec (f : bytes) (e : event) : bool :=
  match fst e with OpExec g _ => beqb g f | _ => false end.
(** How often the script [f] is executed. *)
Definition executions (f : bytes) (t : list event) : nat := List.length (filter (is_exec f) t).

(** A script with one statement: the only semicolon is followed by nothing but white space. *)
Definition one_statement (x : bytes) : Prop :=
  exists body sp, x = body ++ ";"%char :: sp /\ ~ In ";"%char body /\ Forall (fun a => is_space a = true) sp.

(** The run executes nothing (neither a script nor an undo script). *)
Definition no_exec (t : list event) : Prop := forall f x r, ~ In (OpExec f x, r) t.

(** No operation reported an error. *)
Definition all_ok (t : list event) : Prop := forall o r, In (o, r) t -> is_ok r = true.

(** Number of effects of the script [f] in a list of effects. *)
Definition is_effect_of (f : bytes) (e : effect) : bool :=
  match e with Applied g _ => beqb g f | Partly g _ => beqb g f | Undone _ _ => false end.
Definition effects_of (f : bytes) (l : list effect) : nat := List.length (filter (is_effect_of f) l).

(** [l] arises from [fs] by leaving out elements. *)
Inductive subseq {A} : list A -> list A -> Prop :=
| subseq_nil : subseq [] []
| subseq_keep x l fs : subseq l fs -> subseq (x :: l) (x :: fs)
| subseq_drop x l fs : subseq l fs -> subseq l (x :: fs).

(** An effect of the script [f] with its present contents, or of its undo script. *)
Inductive effect_about (c : config) (f : bytes) : effect -> Prop :=
| about_applied x : c_dir c f = Some x -> effect_about c f (Applied f x)
| about_partly x : c_dir c f = Some x -> effect_about c f (Partly f x)
| about_undone u x : undo_script f u -> c_dir c u = Some x -> effect_about c f (Undone u x).

(** The scripts [fs], each applied exactly once. *)
Inductive each_once (c : config) : list bytes -> list effect -> Prop :=
| each_nil : each_once c [] []
| each_cons f x fs es : c_dir c f = Some x -> each_once c fs es -> each_once c (f :: fs) (Applied f x :: es).

(** ** Selection of scripts *)
(** The last component of the path [f] is [n]. *)
Definition named (n f : bytes) : Prop := f = n \/ exists g, f = g ++ B"/" ++ n.
Definition is_script (f : bytes) : Prop :=
  (exists g, f = g ++ B".sql") /\ ~ (exists g, f = g ++ B".undo.sql")
  /\ ~ named (B"schema.sql") f /\ ~ named (B"indexes.sql") f /\ ~ named (B"constraints.sql") f.
(** [l] consists of the elements of [fs] with the property [P], in the same order. *)
Inductive picks (P : bytes -> Prop) : list bytes -> list bytes -> Prop :=
| picks_nil : picks P [] []
| picks_yes f fs l : P f -> picks P fs l -> picks P (f :: fs) (f :: l)
| picks_no f fs l : ~ P f -> picks P fs l -> picks P (f :: fs) l.

(** ** Two processes *)
(** Operations of two processes in their temporal order. *)
Definition joint := list (bool * event).
Definition part (b : bool) (m : joint) : list event := map snd (filter (fun x => Bool.eqb (fst x) b) m).
(** Transactions do not overlap with anything of the other process: the strongest
    isolation that a database could offer.  [owner]: whose transaction is open. *)
Inductive isolated : option bool -> joint -> Prop :=
| isolated_nil owner : isolated owner []
| isolated_cons owner b e m : owner = None \/ owner = Some b ->
    isolated (match e with
              | (OpBegin, r) => if is_ok r then Some b else owner
              | (OpCommit, _) | (OpRollback, _) => None
              | _ => owner
              end) m ->
    isolated owner ((b, e) :: m).
(** Both processes run migrate on the same directory; each sees the history that is
    committed when it queries it. *)
Definition two_runs (c : config) (walk args : list bytes) (s : store) (m : joint) : Prop :=
  isolated None m /\
  forall b, exists m0 r m1 rs o, m = m0 ++ (b, (OpQuery, r)) :: m1
    /\ migrate c walk args (hist (after s (map snd m0))) rs = (part b m, o).
