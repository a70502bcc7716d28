(** Proofs about Go code for table structs: quoted tags, tokens, fields and types. *)
From Coq Require Import Lia.
From Verif Require Import GoStr GoStrFacts ModelCatalog ModelCache ModelDdl ModelModifier SpecModifier ModifierFacts ModelDiff ModelGoTag ModelStructs ModelParser SpecGo SpecStructs.

(** ** Quoting *)
Lemma unescape_char : forall c s, unescape (quote_char c ++ s) = option_map (cons c) (unescape s).
Proof. intros [[] [] [] [] [] [] [] []] s; reflexivity. Qed.
Lemma unescape_quoted : forall s, unescape (flat_map quote_char s) = Some s.
Proof. induction s as [|c s IH]; [reflexivity|]. cbn [flat_map]. rewrite unescape_char, IH. reflexivity. Qed.
Lemma tag_value_char : forall c s, tag_value (quote_char c ++ s) =
  match tag_value s with Some (v, r) => Some (quote_char c ++ v, r) | None => None end.
Proof.
  intros [[] [] [] [] [] [] [] []] s; (set (q := quote_char _); vm_compute in q; subst q; cbn; destruct (tag_value s) as [[v r]|]; reflexivity).
Qed.
Lemma tag_value_quoted : forall s r, tag_value (flat_map quote_char s ++ dquote :: r) = Some (flat_map quote_char s, r).
Proof. induction s as [|c s IH]; intro r; [reflexivity|]. cbn [flat_map]. rewrite <- app_assoc, tag_value_char, IH. reflexivity. Qed.
Lemma absent : forall c s, existsb (ceqb c) s = false -> ~ In c s.
Proof. intros c s H X. assert (E : existsb (ceqb c) s = true) by (apply existsb_exists; exists c; split; [exact X|destruct (ceqb_spec c c); congruence]). congruence. Qed.
Lemma quote_no_tick : forall s, ~ In backtick s -> ~ In backtick (go_quote s).
Proof.
  assert (Q : forall c, c <> backtick -> ~ In backtick (quote_char c)).
  { intros c H. apply absent. destruct c as [[] [] [] [] [] [] [] []]; try (vm_compute; reflexivity). exfalso. apply H. reflexivity. }
  intros s H. unfold go_quote. rewrite !in_app_iff. intros [[X|[]]|[X|[X|[]]]]; [discriminate| |discriminate].
  apply in_flat_map in X as (c & Hc & X). apply (Q c) in X; [exact X|]. intros ->. contradiction.
Qed.
Lemma quote_no_cr : forall s, ~ In CR (go_quote s).
Proof.
  assert (Q : forall c, ~ In CR (quote_char c)) by (intro c; apply absent; destruct c as [[] [] [] [] [] [] [] []]; vm_compute; reflexivity).
  intros s. unfold go_quote. rewrite !in_app_iff. intros [[X|[]]|[X|[X|[]]]]; [discriminate| |discriminate].
  apply in_flat_map in X as (c & Hc & X). exact (Q c X).
Qed.

(** ** The tag of a field *)
Definition tag_body (f : field) : bytes :=
  let ddl := modifiers_string (f_mods f) in
  (if is_empty (f_tag f) then [] else B"sq:" ++ go_quote (f_tag f))
  ++ (if is_empty ddl then [] else (if is_empty (f_tag f) then [] else B" ") ++ B"ddl:" ++ go_quote ddl).
Lemma tag_text_body : forall f, tag_text f = if is_empty (f_tag f) && is_empty (modifiers_string (f_mods f)) then [] else B" `" ++ tag_body f ++ B"`".
Proof.
  intro f. unfold tag_text, tag_body. destruct (f_tag f) as [|a l]; destruct (modifiers_string (f_mods f)) as [|b m]; cbn [is_empty andb];
  rewrite <- ?app_assoc; reflexivity.
Qed.
Lemma tag_step : forall fuel key name s r, (name = B"sq" \/ name = B"ddl") ->
  tag_get_loop (S fuel) key (name ++ B":" ++ go_quote s ++ r) =
  if beqb name key then s else tag_get_loop fuel key r.
Proof.
  intros fuel key name s r N.
  assert (E : tag_name (skip_blanks (name ++ B":" ++ go_quote s ++ r)) = (name, B":" ++ go_quote s ++ r)).
  { destruct N as [-> | ->]; reflexivity. }
  cbn [tag_get_loop]. rewrite E. assert (Ne : name <> []) by (destruct N as [-> | ->]; discriminate).
  destruct name as [|x name]; [contradiction|]. unfold go_quote. cbn [B app list_ascii_of_string].
  change (ceqb ":"%char ":"%char && ceqb dquote dquote) with true. cbn iota. rewrite <- app_assoc. change ([dquote] ++ r) with (dquote :: r).
  rewrite tag_value_quoted, unescape_quoted. reflexivity.
Qed.
Lemma tag_blank : forall fuel key s, tag_get_loop fuel key (SPACE :: s) = tag_get_loop fuel key s.
Proof. intros [|fuel] key s; reflexivity. Qed.
Lemma tag_nil : forall fuel key, tag_get_loop fuel key [] = [].
Proof. intros [|fuel] key; reflexivity. Qed.

Lemma tag_sq : forall f, tag_get (B"sq") (tag_body f) = f_tag f.
Proof.
  intro f. unfold tag_get, tag_body. cbv zeta. set (ddl := modifiers_string _). destruct (f_tag f) as [|a tag].
  - cbn [is_empty]. destruct ddl as [|b m]; [reflexivity|]. cbn [is_empty app].
    change (B"ddl:" ++ go_quote (b :: m)) with (B"ddl" ++ B":" ++ go_quote (b :: m)).
    rewrite <- (app_nil_r (go_quote (b :: m))). destruct (List.length _) eqn:E; [discriminate|].
    rewrite tag_step by auto. apply tag_nil.
  - cbn [is_empty]. set (r := if is_empty ddl then _ else _). rewrite <- app_assoc.
    change (B"sq:" ++ go_quote (a :: tag) ++ r) with (B"sq" ++ B":" ++ go_quote (a :: tag) ++ r).
    destruct (List.length _) eqn:E; [discriminate|]. rewrite tag_step by auto. reflexivity.
Qed.
Lemma tag_ddl : forall f, tag_get (B"ddl") (tag_body f) = modifiers_string (f_mods f).
Proof.
  intro f. unfold tag_get, tag_body. cbv zeta. set (ddl := modifiers_string _). destruct (f_tag f) as [|a tag].
  - cbn [is_empty]. destruct ddl as [|b m]; [reflexivity|]. cbn [is_empty app].
    change (B"ddl:" ++ go_quote (b :: m)) with (B"ddl" ++ B":" ++ go_quote (b :: m)).
    rewrite <- (app_nil_r (go_quote (b :: m))). destruct (List.length _) eqn:E; [discriminate|].
    rewrite tag_step by auto. reflexivity.
  - cbn [is_empty]. set (r := if is_empty ddl then _ else _). rewrite <- app_assoc.
    change (B"sq:" ++ go_quote (a :: tag) ++ r) with (B"sq" ++ B":" ++ go_quote (a :: tag) ++ r).
    destruct (List.length _) as [|k] eqn:E; [discriminate|]. rewrite tag_step by auto. cbn [beqb].
    change (beqb (B"sq") (B"ddl")) with false. cbn iota. unfold r. destruct ddl as [|b m]; [apply tag_nil|]. cbn [is_empty].
    change (B" " ++ B"ddl:" ++ go_quote (b :: m)) with (SPACE :: B"ddl" ++ B":" ++ go_quote (b :: m)).
    rewrite tag_blank, <- (app_nil_r (go_quote (b :: m))). destruct k as [|k].
    { exfalso. revert E. unfold r. cbn. rewrite !app_length. cbn. lia. }
    rewrite tag_step by auto. reflexivity.
Qed.

Lemma body_no_tick : forall f, ~ In backtick (f_tag f) -> ~ In backtick (modifiers_string (f_mods f)) -> ~ In backtick (tag_body f).
Proof.
  intros f H1 H2. unfold tag_body. cbv zeta. rewrite in_app_iff. intros [X|X].
  - destruct (is_empty (f_tag f)); [destruct X|]. apply in_app_iff in X as [X|X]; [cbn in X; intuition discriminate|].
    exact (quote_no_tick _ H1 X).
  - destruct (is_empty (modifiers_string (f_mods f))); [destruct X|]. apply in_app_iff in X as [X|X].
    { destruct (is_empty (f_tag f)); cbn in X; intuition discriminate. }
    apply in_app_iff in X as [X|X]; [cbn in X; intuition discriminate|]. exact (quote_no_tick _ H2 X).
Qed.
Lemma body_no_cr : forall f, ~ In CR (tag_body f).
Proof.
  intros f. unfold tag_body. cbv zeta. rewrite in_app_iff. intros [X|X].
  - destruct (is_empty (f_tag f)); [destruct X|]. apply in_app_iff in X as [X|X]; [cbn in X; intuition discriminate|].
    exact (quote_no_cr _ X).
  - destruct (is_empty (modifiers_string (f_mods f))); [destruct X|]. apply in_app_iff in X as [X|X].
    { destruct (is_empty (f_tag f)); cbn in X; intuition discriminate. }
    apply in_app_iff in X as [X|X]; [cbn in X; intuition discriminate|]. exact (quote_no_cr _ X).
Qed.
Lemma replace_absent : forall c r s, ~ In c s -> replace_byte c r s = s.
Proof.
  intros c r s H. induction s as [|x s IH]; [reflexivity|]. cbn. destruct (ceqb_spec x c) as [->|N]; [exfalso; apply H; left; reflexivity|].
  unfold replace_byte in IH. rewrite IH; [reflexivity|]. intro X. apply H. right. exact X.
Qed.
Lemma unquote_body : forall s, ~ In backtick s -> ~ In CR s -> go_unquote (B"`" ++ s ++ B"`") = Some s.
Proof.
  intros s H1 H2. unfold go_unquote. cbn [B app list_ascii_of_string]. change "`"%char with backtick.
  rewrite rev_app_distr. cbn [rev app hd_error]. rewrite removelast_last.
  replace (negb (ceqb backtick backtick)) with false by reflexivity. replace (ceqb backtick backtick) with true by reflexivity.
  assert (E : existsb (ceqb backtick) s = false).
  { destruct (existsb (ceqb backtick) s) eqn:E; [|reflexivity]. apply existsb_exists in E as (x & Hx & X).
    destruct (ceqb_spec backtick x); [subst; contradiction|discriminate]. }
  rewrite E, replace_absent by exact H2. reflexivity.
Qed.

(** Backticks in printed modifiers. *)
Lemma has_tick_text : forall m, printable m -> no_backticks m -> ~ In backtick (text m).
Proof.
  induction m as [ds n raw value subs IH] using modifier_nested. intros P N. inversion N as [? ? ? ? ? N1 N2 N3 N4]; subst.
  cbn [text]. rewrite in_app_iff. intros [X|X]; [contradiction|].
  destruct raw as [|r raw].
  - assert (Ps : Forall printable subs) by (inversion P; [contradiction|assumption]).
    assert (S : ~ In backtick (flat_map (fun m => SPACE :: text m) subs)).
    { intro Y. apply in_flat_map in Y as (m & Hm & [Y|Y]); [discriminate|]. rewrite Forall_forall in IH, N4, Ps. exact (IH m Hm (Ps m Hm) (N4 m Hm) Y). }
    assert (V : ~ In backtick (value_text value)).
    { destruct value as [|v value]; [cbn; intuition discriminate|]. unfold value_text. destruct (has_blank _); [|exact N3].
      rewrite !in_app_iff. intros [[Y|[]]|[Y|[Y|[]]]]; [discriminate|contradiction|discriminate]. }
    assert (L : ~ In backtick (B"={" ++ value_text value ++ flat_map (fun m => SPACE :: text m) subs ++ B"}")).
    { rewrite !in_app_iff. intros [Y|[Y|[Y|Y]]]; try contradiction; cbn in Y; intuition discriminate. }
    destruct value as [|v value], subs as [|m subs]; [exact X|exact (L X)| |].
    + destruct (has_blank (v :: value) || false); [exact (L X)|]. apply in_app_iff in X as [X|X]; [cbn in X; intuition discriminate|contradiction].
    + rewrite orb_true_r in X. exact (L X).
  - destruct (has_blank _).
    + rewrite !in_app_iff in X. destruct X as [X|[X|X]]; [cbn in X; intuition discriminate|contradiction|cbn in X; intuition discriminate].
    + apply in_app_iff in X as [X|X]; [cbn in X; intuition discriminate|contradiction].
Qed.
Lemma string_no_tick : forall ms, Forall printable ms -> Forall no_backticks ms -> long_start ms -> ~ In backtick (modifiers_string ms).
Proof.
  intros ms P N L. destruct ms as [|m ms]; [intros []|]. rewrite string_texts by assumption. inversion P; inversion N; subst.
  rewrite in_app_iff. intros [X|X]; [exact (has_tick_text m ltac:(assumption) ltac:(assumption) X)|].
  unfold texts in X. apply in_flat_map in X as (y & Hy & [X|X]); [discriminate|].
  match goal with A : Forall printable ms, C : Forall no_backticks ms |- _ => rewrite Forall_forall in A, C; exact (has_tick_text y (A y Hy) (C y Hy) X) end.
Qed.

(** ** The field that is read *)
Definition split_type (ty : bytes) : go_type :=
  if beqb ty (B"struct{}") then EmptyStruct else match cut_byte "."%char ty with Some (x, sel) => Selector x sel | None => Ident ty end.
Definition field_tag (f : field) : option bytes :=
  if is_empty (f_tag f) && is_empty (modifiers_string (f_mods f)) then None else Some (B"`" ++ tag_body f ++ B"`").
Definition go_of (f : field) : go_field :=
  GoField (if is_empty (f_name f) then [] else [f_name f]) (split_type (f_type f)) (field_tag f).
Definition read_back (f : field) : field := Field (f_name f) (f_type f) (f_tag f) (map parsed (f_mods f)).

Lemma string_parsed : forall ms, Forall printable ms -> long_start ms -> new_modifiers (modifiers_string ms) = Some (Ok (map parsed ms)).
Proof.
  intros [|m ms] H L; [reflexivity|]. rewrite string_texts by assumption.
  assert (Hne : text m ++ texts ms <> []).
  { inversion H as [|? ? Hm _]; subst. destruct (text_closed _ Hm) as (t & x & -> & _). destruct t; discriminate. }
  rewrite new_trim by auto. change (SPACE :: text m ++ texts ms) with (texts (m :: ms)). apply new_texts. exact H.
Qed.

Lemma visit_back : forall f, field_ok f -> visit_field (go_of f) = Ok (Some (read_back f), []).
Proof.
  intros f (T & K & P & N & L). unfold visit_field, go_of. cbn [gf_names gf_type gf_tag].
  assert (Et : type_name (split_type (f_type f)) = f_type f).
  { destruct T as [(_ & x & -> & _)|(_ & [(x & -> & _)| ->])]; try reflexivity. }
  assert (R : read_tag (field_tag f) = (f_tag f, Ok (map parsed (f_mods f)))).
  { unfold read_tag, field_tag. destruct (is_empty (f_tag f) && is_empty (modifiers_string (f_mods f))) eqn:E.
    - apply andb_true_iff in E as (E1 & E2). pose proof (string_parsed _ P L) as S.
      destruct (f_tag f); [|discriminate]. destruct (modifiers_string (f_mods f)); [|discriminate]. cbn in S. injection S as <-. reflexivity.
    - rewrite unquote_body; [|apply body_no_tick; [exact K|apply string_no_tick; assumption]|apply body_no_cr].
      rewrite tag_sq, tag_ddl, string_parsed by assumption. reflexivity. }
  rewrite R, Et. unfold read_back. destruct (f_name f); reflexivity.
Qed.

(** ** Tokens *)
Lemma lex_word : forall w s c, forallb ident_char w = true -> ident_char c = false ->
  forall acc, acc <> [] -> go_lex (InWord acc) (w ++ c :: s) = option_map (cons (GIdent (rev acc ++ w))) (go_lex (Between true) (c :: s)).
Proof.
  induction w as [|x w IH]; intros s c Hw Hc acc Ha.
  - cbn [app]. rewrite app_nil_r. cbn [go_lex]. rewrite Hc. destruct acc as [|a acc]; [contradiction|]. reflexivity.
  - cbn in Hw. apply andb_true_iff in Hw as (Hx & Hw). cbn [app go_lex]. rewrite Hx, IH by (auto; discriminate). cbn [rev]. rewrite <- app_assoc. reflexivity.
Qed.
Lemma lex_ident : forall n s c semi, is_ident n = true -> ident_char c = false ->
  go_lex (Between semi) (n ++ c :: s) = option_map (cons (GIdent n)) (go_lex (Between true) (c :: s)).
Proof.
  intros [|x n] s c semi H Hc; [discriminate|]. cbn [is_ident] in H. apply andb_true_iff in H as (H & _). apply andb_true_iff in H as (Hx & Hn).
  cbn in Hn. apply andb_true_iff in Hn as (_ & Hn). cbn [app go_lex].
  assert (E : ceqb x SPACE || ceqb x TAB || ceqb x CR = false /\ ceqb x LF = false).
  { clear - Hx. revert Hx. destruct x as [[] [] [] [] [] [] [] []]; intro H; vm_compute in H |- *; split; try reflexivity; discriminate. }
  destruct E as (-> & ->). rewrite Hx, lex_word by (auto; discriminate). reflexivity.
Qed.
Lemma lex_raw : forall w s acc, ~ In backtick w ->
  go_lex (InRaw acc) (w ++ backtick :: s) = option_map (cons (GRaw (rev acc ++ w))) (go_lex (Between true) s).
Proof.
  induction w as [|x w IH]; intros s acc H.
  - cbn [app go_lex]. replace (ceqb backtick backtick) with true by reflexivity. rewrite app_nil_r. reflexivity.
  - cbn [app go_lex]. destruct (ceqb_spec x backtick) as [->|N]; [exfalso; apply H; left; reflexivity|].
    rewrite IH by (intro X; apply H; right; exact X). cbn [rev]. rewrite <- app_assoc. reflexivity.
Qed.
Lemma map_map_cons : forall {A} (a : list A) b (o : option (list A)), option_map (app a) (option_map (app b) o) = option_map (app (a ++ b)) o.
Proof. intros A a b [x|]; cbn; [rewrite app_assoc|]; reflexivity. Qed.
Lemma cons_app1 : forall {A} (a : A) (o : option (list A)), option_map (cons a) o = option_map (app [a]) o.
Proof. intros A a [x|]; reflexivity. Qed.

Definition type_tokens (ty : bytes) : list gtoken :=
  match split_type ty with
  | Selector x sel => [GIdent x; GPunct "."%char; GIdent sel]
  | EmptyStruct => [GIdent (B"struct"); GPunct "{"%char; GPunct "}"%char]
  | _ => []
  end.
Definition tag_tokens (f : field) : list gtoken :=
  if is_empty (f_tag f) && is_empty (modifiers_string (f_mods f)) then [] else [GRaw (tag_body f)].
Definition field_tokens (f : field) : list gtoken :=
  (if is_empty (f_name f) then [] else [GIdent (f_name f)]) ++ type_tokens (f_type f) ++ tag_tokens f.

(** What follows the type: a blank with the tag, or the end of the line. *)
Lemma lex_tag : forall f s, ~ In backtick (tag_body f) ->
  go_lex (Between true) (tag_text f ++ LF :: s) = option_map (app (tag_tokens f)) (go_lex (Between true) (LF :: s)).
Proof.
  intros f s H. rewrite tag_text_body. unfold tag_tokens. destruct (_ && _).
  - cbn [app]. destruct (go_lex (Between true) (LF :: s)); reflexivity.
  - rewrite <- !app_assoc. change (B" `" ++ tag_body f ++ B"`" ++ LF :: s) with (SPACE :: backtick :: tag_body f ++ backtick :: LF :: s).
    change (go_lex (Between true) (SPACE :: backtick :: tag_body f ++ backtick :: LF :: s)) with (go_lex (InRaw []) (tag_body f ++ backtick :: LF :: s)).
    rewrite lex_raw by exact H. apply cons_app1.
Qed.
Lemma tag_start : forall f s, exists c r, tag_text f ++ LF :: s = c :: r /\ ident_char c = false.
Proof.
  intros f s. rewrite tag_text_body. destruct (_ && _); [exists LF, s; split; reflexivity|].
  eexists. eexists. split; [cbn; reflexivity|]. reflexivity.
Qed.
Lemma lex_type : forall f s semi, (sq_type (f_type f) \/ f_type f = B"struct{}") -> ~ In backtick (tag_body f) ->
  go_lex (Between semi) (f_type f ++ tag_text f ++ LF :: s)
  = option_map (app (type_tokens (f_type f) ++ tag_tokens f)) (go_lex (Between true) (LF :: s)).
Proof.
  intros f s semi T H. destruct (tag_start f s) as (c & r & E & Hc). destruct T as [(x & Ex & Ix)| Ex]; rewrite Ex.
  - assert (Et : type_tokens (B"sq." ++ x) = [GIdent (B"sq"); GPunct "."%char; GIdent x]) by reflexivity. rewrite Et.
    rewrite <- app_assoc. change (B"sq." ++ x ++ tag_text f ++ LF :: s) with (B"sq" ++ "."%char :: x ++ tag_text f ++ LF :: s).
    rewrite lex_ident by reflexivity.
    change (go_lex (Between true) ("."%char :: x ++ tag_text f ++ LF :: s)) with (option_map (cons (GPunct "."%char)) (go_lex (Between false) (x ++ tag_text f ++ LF :: s))).
    rewrite E, lex_ident by assumption. rewrite <- E, lex_tag by exact H. destruct (go_lex (Between true) (LF :: s)); reflexivity.
  - change (B"struct{}" ++ tag_text f ++ LF :: s) with (B"struct" ++ "{"%char :: "}"%char :: tag_text f ++ LF :: s).
    assert (W : go_lex (Between semi) (B"struct" ++ "{"%char :: "}"%char :: tag_text f ++ LF :: s) =
      option_map (cons (GIdent (B"struct"))) (go_lex (Between true) ("{"%char :: "}"%char :: tag_text f ++ LF :: s))) by reflexivity.
    rewrite W.
    change (go_lex (Between true) ("{"%char :: "}"%char :: tag_text f ++ LF :: s)) with
      (option_map (cons (GPunct "{"%char)) (option_map (cons (GPunct "}"%char)) (go_lex (Between true) (tag_text f ++ LF :: s)))).
    rewrite lex_tag by exact H. destruct (go_lex (Between true) (LF :: s)); reflexivity.
Qed.
Lemma lex_field : forall f s semi, field_ok f ->
  go_lex (Between semi) (field_text f ++ LF :: s)
  = option_map (app ((if semi then [GSemi] else []) ++ field_tokens f)) (go_lex (Between true) (LF :: s)).
Proof.
  intros f s semi (T & K & P & N & L).
  assert (H : ~ In backtick (tag_body f)) by (apply body_no_tick; [exact K|apply string_no_tick; assumption]).
  unfold field_text. rewrite <- !app_assoc.
  set (r := (if is_empty (f_name f) then [] else f_name f ++ B" ") ++ f_type f ++ tag_text f ++ LF :: s).
  change (go_lex (Between semi) ([LF; TAB] ++ r)) with (option_map (app (if semi then [GSemi] else [])) (go_lex (Between false) r)).
  assert (E : go_lex (Between false) r = option_map (app (field_tokens f)) (go_lex (Between true) (LF :: s))).
  { unfold r, field_tokens. destruct T as [(En & T)|(In_ & T)].
    - rewrite En. cbn [is_empty app]. apply lex_type; auto.
    - destruct (f_name f) as [|a n] eqn:En; [discriminate|]. cbn [is_empty]. rewrite <- app_assoc.
      change (B" " ++ f_type f ++ tag_text f ++ LF :: s) with (SPACE :: f_type f ++ tag_text f ++ LF :: s).
      rewrite lex_ident by (auto; reflexivity).
      change (go_lex (Between true) (SPACE :: f_type f ++ tag_text f ++ LF :: s)) with (go_lex (Between true) (f_type f ++ tag_text f ++ LF :: s)).
      rewrite lex_type by auto. destruct (go_lex (Between true) (LF :: s)); reflexivity. }
  rewrite E, map_map_cons. reflexivity.
Qed.
Lemma lex_fields : forall fs s semi, Forall field_ok fs ->
  go_lex (Between semi) (flat_map field_text fs ++ LF :: s)
  = option_map (app ((if semi then [GSemi] else []) ++ flat_map (fun f => field_tokens f ++ [GSemi]) fs)) (go_lex (Between false) s).
Proof.
  induction fs as [|f fs IH]; intros s semi H.
  - cbn [flat_map app]. rewrite app_nil_r. reflexivity.
  - inversion H as [|? ? Hf Hfs]; subst. cbn [flat_map].
    assert (E : exists r, flat_map field_text fs ++ LF :: s = LF :: r).
    { destruct fs as [|g fs]; [exists s; reflexivity|]. eexists. cbn. reflexivity. }
    destruct E as (r & E). rewrite <- app_assoc, E, lex_field by exact Hf. rewrite <- E, IH by exact Hfs. rewrite map_map_cons. f_equal. f_equal.
    rewrite <- !app_assoc. reflexivity.
Qed.
Definition struct_tokens (s : table_struct) : list gtoken :=
  [GIdent (B"type"); GIdent (ts_name s); GIdent (B"struct"); GPunct "{"%char]
  ++ flat_map (fun f => field_tokens f ++ [GSemi]) (ts_fields s) ++ [GPunct "}"%char; GSemi].
Lemma lex_struct : forall t s, is_ident (ts_name t) = true -> Forall field_ok (ts_fields t) ->
  go_lex (Between false) (struct_text t ++ s) = option_map (app (struct_tokens t)) (go_lex (Between false) s).
Proof.
  intros t s N F. unfold struct_text, struct_tokens. rewrite <- !app_assoc.
  set (r1 := flat_map field_text (ts_fields t) ++ [LF] ++ B"}" ++ [LF] ++ s).
  change (B"type " ++ ts_name t ++ B" struct {" ++ r1) with (B"type" ++ SPACE :: ts_name t ++ SPACE :: B"struct" ++ SPACE :: "{"%char :: r1).
  set (r2 := ts_name t ++ SPACE :: B"struct" ++ SPACE :: "{"%char :: r1).
  assert (W1 : go_lex (Between false) (B"type" ++ SPACE :: r2) = option_map (cons (GIdent (B"type"))) (go_lex (Between true) r2)) by reflexivity.
  assert (W2 : go_lex (Between true) r2 = option_map (cons (GIdent (ts_name t))) (go_lex (Between true) (SPACE :: B"struct" ++ SPACE :: "{"%char :: r1))).
  { apply lex_ident; [exact N|reflexivity]. }
  assert (W3 : go_lex (Between true) (SPACE :: B"struct" ++ SPACE :: "{"%char :: r1)
    = option_map (cons (GIdent (B"struct"))) (option_map (cons (GPunct "{"%char)) (go_lex (Between false) r1))) by reflexivity.
  assert (W4 : go_lex (Between false) r1 = option_map (app (flat_map (fun f => field_tokens f ++ [GSemi]) (ts_fields t)))
    (go_lex (Between false) (B"}" ++ LF :: s))) by (apply (lex_fields _ _ false F)).
  assert (W5 : go_lex (Between false) (B"}" ++ LF :: s) = option_map (cons (GPunct "}"%char)) (option_map (app [GSemi]) (go_lex (Between false) s))) by reflexivity.
  rewrite W1, W2, W3, W4, W5. destruct (go_lex (Between false) s) as [l|]; [|reflexivity]. cbn. rewrite <- app_assoc. reflexivity.
Qed.
Lemma lex_structs : forall l, Forall (fun t => is_ident (ts_name t) = true /\ Forall field_ok (ts_fields t)) l ->
  go_lex (Between false) (join [LF] (map struct_text l)) = Some (flat_map struct_tokens l).
Proof.
  intros l H. induction H as [|t l (N & F) H IH]; [reflexivity|]. cbn [map flat_map]. destruct l as [|t' l].
  - cbn [map join]. rewrite <- (app_nil_r (struct_text t)). rewrite lex_struct by assumption. reflexivity.
  - cbn [map] in *. rewrite join_cons by discriminate. rewrite lex_struct by assumption.
    change (go_lex (Between false) ([LF] ++ join [LF] (struct_text t' :: map struct_text l))) with
      (option_map (app []) (go_lex (Between false) (join [LF] (struct_text t' :: map struct_text l)))).
    rewrite IH. reflexivity.
Qed.

(** ** Declarations *)
Lemma tag_of_tokens : forall f l, go_tag (tag_tokens f ++ GSemi :: l) = (field_tag f, GSemi :: l).
Proof. intros f l. unfold tag_tokens, field_tag. destruct (_ && _); reflexivity. Qed.
Lemma parse_field_tokens : forall f l, field_ok f -> go_field_of (field_tokens f ++ GSemi :: l) = Some (go_of f, l).
Proof.
  intros f l (T & _). unfold field_tokens, go_of. rewrite <- !app_assoc.
  assert (Q : forall names ty, end_field names ty (tag_tokens f ++ GSemi :: l) = Some (GoField names ty (field_tag f), l)).
  { intros. unfold end_field. rewrite tag_of_tokens. reflexivity. }
  assert (S : forall x, type_tokens (B"sq." ++ x) = [GIdent (B"sq"); GPunct "."%char; GIdent x] /\ split_type (B"sq." ++ x) = Selector (B"sq") x) by (split; reflexivity).
  destruct T as [(-> & x & -> & Ix)|(In_ & [(x & -> & Ix)| ->])].
  - destruct (S x) as (-> & ->). cbn [is_empty app go_field_of]. rewrite Ix. change (ceqb "."%char "."%char && is_ident (B"sq") && true) with true. apply Q.
  - destruct (S x) as (-> & ->). destruct (f_name f) as [|a n] eqn:En; [discriminate|]. cbn [is_empty app go_field_of]. rewrite In_, Ix.
    change (ceqb "."%char "."%char && true && is_ident (B"sq") && true) with true. apply Q.
  - destruct (f_name f) as [|a n] eqn:En; [discriminate|]. unfold type_tokens, split_type.
    change (beqb (B"struct{}") (B"struct{}")) with true. cbn [is_empty app go_field_of]. rewrite In_.
    change (beqb (B"struct") (B"struct") && ceqb "{"%char "{"%char && ceqb "}"%char "}"%char && true) with true. apply Q.
Qed.
Lemma first_token : forall f l, field_ok f -> exists n r, field_tokens f ++ l = GIdent n :: r.
Proof.
  intros f l (T & _). unfold field_tokens. destruct T as [(-> & x & -> & Ix)|(In_ & _)]; [eexists; eexists; reflexivity|].
  destruct (f_name f) as [|a n]; [discriminate|]. eexists. eexists. reflexivity.
Qed.
Lemma parse_fields_tokens : forall fs fuel l, Forall field_ok fs -> List.length fs < fuel ->
  go_fields_of fuel (flat_map (fun f => field_tokens f ++ [GSemi]) fs ++ GPunct "}"%char :: l) = Some (map go_of fs, l).
Proof.
  induction fs as [|f fs IH]; intros fuel l H L; (destruct fuel as [|fuel]; [cbn in L; lia|]).
  - reflexivity.
  - inversion H as [|? ? Hf Hfs]; subst. cbn [flat_map map]. rewrite <- !app_assoc.
    set (r := flat_map _ fs ++ _). destruct (first_token f ([GSemi] ++ r) Hf) as (n & q & E). cbn [go_fields_of]. rewrite E. rewrite <- E.
    change ([GSemi] ++ r) with (GSemi :: r). rewrite parse_field_tokens by exact Hf. unfold r. rewrite IH; [reflexivity|exact Hfs|cbn in L; lia].
Qed.
Definition go_struct_of (t : table_struct) : go_struct := GoStruct (ts_name t) (map go_of (ts_fields t)).
Lemma tokens_length : forall fs, Forall field_ok fs -> List.length fs <= List.length (flat_map (fun f => field_tokens f ++ [GSemi]) fs).
Proof. induction fs as [|f fs IH]; intro H; cbn; [lia|]. inversion H; subst. rewrite !app_length. cbn. specialize (IH ltac:(assumption)). lia. Qed.
Lemma parse_types_tokens : forall l fuel, Forall (fun t => is_ident (ts_name t) = true /\ Forall field_ok (ts_fields t)) l ->
  List.length (flat_map struct_tokens l) < fuel -> go_types_of fuel (flat_map struct_tokens l) = Some (map go_struct_of l).
Proof.
  induction l as [|t l IH]; intros fuel H L; [destruct fuel; reflexivity|]. inversion H as [|? ? (N & F) Hl]; subst.
  destruct fuel as [|fuel]; [cbn in L; lia|]. cbn [flat_map map] in *. unfold struct_tokens at 1 in L. unfold struct_tokens at 1.
  rewrite <- !app_assoc in *. cbn [app] in *. cbn [go_types_of]. rewrite N.
  change (beqb (B"type") (B"type") && true && beqb (B"struct") (B"struct") && ceqb "{"%char "{"%char) with true. cbn iota.
  pose proof (tokens_length (ts_fields t) F) as TL. cbn [List.length] in L. rewrite app_length in L. cbn [List.length] in L.
  rewrite parse_fields_tokens by (auto; lia). rewrite IH by (auto; lia). reflexivity.
Qed.

(** ** Structs that are read back *)
Definition read_back_struct (t : table_struct) : table_struct := TableStruct (ts_name t) (map read_back (ts_fields t)).
Lemma visit_fields_back : forall fs, Forall field_ok fs -> visit_fields (map go_of fs) = Ok (map read_back fs, []).
Proof.
  induction fs as [|f fs IH]; intro H; [reflexivity|]. inversion H as [|? ? Hf Hfs]; subst. cbn [map visit_fields].
  rewrite visit_back by exact Hf. cbn [bindr]. rewrite IH by exact Hfs. reflexivity.
Qed.
Lemma visit_structs_back : forall l, Forall struct_ok l -> visit_structs (map go_struct_of l) = Ok (map read_back_struct l, []).
Proof.
  induction l as [|t l IH]; intro H; [reflexivity|]. inversion H as [|? ? Ht Hl]; subst. cbn [map visit_structs].
  destruct Ht as (_ & (first & fields & E & En & Et) & F & _).
  assert (V : visit_struct (go_struct_of t) = Ok ([read_back_struct t], [])).
  { unfold visit_struct, go_struct_of, read_back_struct. cbn [gs_fields gs_name]. rewrite E in *. inversion F as [|? ? Ff Ffs]; subst. cbn [map].
    rewrite visit_back by exact Ff. cbn [bindr read_back f_name f_type]. rewrite En, Et. cbn [is_empty negb orb].
    change (negb (beqb (B"sq.TableStruct") (B"sq.TableStruct"))) with false. cbn iota. rewrite visit_fields_back by exact Ffs. cbn [bindr].
    reflexivity. }
  rewrite V. cbn [bindr]. rewrite IH by exact Hl. reflexivity.
Qed.

Theorem text_read_back : forall l, Forall struct_ok l ->
  go_declarations (marshal_text l) = Some (map go_struct_of l)
  /\ visit_structs (map go_struct_of l) = Ok (map read_back_struct l, []).
Proof.
  intros l H. split; [|apply visit_structs_back; exact H].
  assert (Fl : filter has_column l = l).
  { induction H as [|t l Ht H IH]; [reflexivity|]. cbn [filter]. rewrite IH. destruct Ht as (_ & _ & _ & f & Hf & N1 & N2).
    assert (E : has_column t = true); [|rewrite E; reflexivity]. unfold has_column. apply existsb_exists. exists f. split; [exact Hf|].
    apply andb_true_iff. split; [destruct (f_name f); [contradiction|reflexivity]|]. destruct (beqb_spec (f_name f) (B"_")); [contradiction|reflexivity]. }
  assert (G : Forall (fun t => is_ident (ts_name t) = true /\ Forall field_ok (ts_fields t)) l).
  { eapply Forall_impl; [|exact H]. intros t (A & _ & C & _). auto. }
  unfold marshal_text. rewrite Fl. unfold go_declarations. rewrite lex_structs by exact G. apply parse_types_tokens; [exact G|lia].
Qed.
Lemma read_back_same : forall l, Forall struct_ok l -> Forall2 same_struct l (map read_back_struct l).
Proof.
  intros l H. induction H as [|t l (_ & _ & F & _) H IH]; [constructor|]. cbn. constructor; [|exact IH]. split; [reflexivity|].
  cbn. clear - F. induction F as [|f fs (_ & _ & P & _) F IH]; [constructor|]. cbn. constructor; [|exact IH]. repeat split.
  cbn. clear - P. induction P; cbn; constructor; auto. apply reads_parsed. assumption.
Qed.
