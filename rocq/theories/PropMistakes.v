(** C121: a mistake in the tag of a struct is reported at its field and under the modifiers that lead to it, by the command
    and by the linter alike. *)
From Verif Require Import GoStr GoStrFacts ModelDdl ModelModifier ModelCatalog ModelCache ModelDiff ModelStructs ModelParser ModelAnnotate ModelMistakes.
From Verif Require Import AnnotateFacts SpecAnnotate SpecMistakes MistakesFacts MistakesLink.

(** The whole claim: for the places, and for the texts. *)
Definition C121_statement_places : Prop := forall d column ms path c,
  In (path, c) (tag_notes d column ms) <-> tag_wrong d (field_part column) (opt_list column) ms path c.
Definition C121_statement_texts : Prop := forall l msg, lo_struct l <> [] ->
  error_line None l msg = line (lo_struct l) (lo_field l) (lo_keys l) msg /\ lint l msg = Text (line (lo_struct l) (lo_field l) (lo_keys l) msg).

(** What is wrong is what is reported, for all tags. *)
Theorem C121_complaints d column ms c :
  (exists keys, In (keys, c) (tag_notes d column ms)) <-> exists path, tag_wrong d (field_part column) (opt_list column) ms path c.
Proof.
  destruct (notes_fits true d column ms ([], [])) as (A & C); [auto|auto|]. split.
  - intros (k & I). destruct (A k c I) as (path & X & _). exists path. apply tag_form. exact X.
  - intros (path & X). apply tag_form in X. destruct (C path c X) as (k & I & _). exists k. exact I.
Qed.
(** Right tags have no reports, and only they. *)
Theorem C121_silent d column ms : tag_notes d column ms = [] <-> forall path c, ~ tag_wrong d (field_part column) (opt_list column) ms path c.
Proof.
  split.
  - intros E path c W. destruct (proj2 (C121_complaints d column ms c) (ex_intro _ path W)) as (k & I). rewrite E in I. exact I.
  - intros N. destruct (tag_notes d column ms) as [|[k c] l] eqn:E; [reflexivity|]. exfalso.
    destruct (proj1 (C121_complaints d column ms c)) as (path & W); [exists k; rewrite E; left; reflexivity|]. exact (N path c W).
Qed.
(** The same for the whole parser of C78, which also fills the tables: what it adds to its reports. *)
Theorem C121_parser flt d n ty p ms p' : parse_column flt d n ty p ms = Ok p' -> exists added, pa_reports p' = pa_reports p ++ added /\
  forall c, In c added <-> exists path, tag_wrong d Column [n] ms path c.
Proof.
  intros E. exists (map snd (tag_notes d (Some n) ms)). split; [eapply column_reports; exact E|]. intros c. rewrite <- (C121_complaints d (Some n) ms c), in_map_iff. split.
  - intros ([k c'] & <- & I). exists k. exact I.
  - intros (k & I). exists (k, c). auto.
Qed.
Theorem C121_parser_tables d p ms p' : parse_table d p ms = Ok p' -> exists added, pa_reports p' = pa_reports p ++ added /\
  forall c, In c added <-> exists path, tag_wrong d Table [] ms path c.
Proof.
  intros E. exists (map snd (tag_notes d None ms)). split; [eapply table_reports; exact E|]. intros c. rewrite <- (C121_complaints d None ms c), in_map_iff. split.
  - intros ([k c'] & <- & I). exists k. exact I.
  - intros (k & I). exists (k, c). auto.
Qed.
(** And under the right path, if the tag is orderly. *)
Theorem C121_partial d column ms path c : orderly d (field_part column) ms ->
  In (path, c) (tag_notes d column ms) <-> tag_wrong d (field_part column) (opt_list column) ms path c.
Proof.
  intros O. destruct (notes_fits false d column ms ([], [])) as (A & C); [auto|auto|]. rewrite tag_form. split.
  - intros I. destruct (A path c I) as (path' & X & [L| ->]); [discriminate L|exact X].
  - intros X. destruct (C path c X) as (k & I & [L| ->]); [discriminate L|exact I].
Qed.
(** One modifier that is no foreign key is always orderly. *)
Lemma one_orderly d p m : inside p (m_name m) <> Some Foreign -> inside p (m_name m) <> Some References -> orderly d p [m].
Proof.
  intros F R. split.
  - intros a m0 b x E I. destruct a as [|y a]; cbn in E; [|apply (f_equal (@List.length _)) in E; cbn in E; rewrite app_length in E; cbn in E; exfalso; Lia.lia].
    injection E as _ <-. destruct I.
  - intros ds m0 m' q [<-|[]] Q [<-|[<-|[]]]; contradiction.
Qed.

Definition tag (s : bytes) : list modifier := match new_modifiers s with Some (Ok l) => l | _ => [] end.
(** The keys of a modifier stay for an unknown one behind it. *)
Theorem C121_refuted : ~ C121_statement_places.
Proof.
  intros H. specialize (H Postgres (Some (B"id")) (tag (B"primarykey foo")) [B"primarykey"] (UnknownModifier (B"foo"))).
  assert (I : tag_wrong Postgres Column [B"id"] (tag (B"primarykey foo")) [B"primarykey"] (UnknownModifier (B"foo"))).
  { apply H. vm_compute. auto. }
  assert (O : tag_notes Postgres (Some (B"id")) (tag (B"primarykey")) = []) by reflexivity.
  remember [B"primarykey"] as path eqn:P. remember (UnknownModifier (B"foo")) as c eqn:E.
  destruct I as [m R N|q m path' c' R Q W]; [discriminate P|]. injection P as P1 P2. subst path'.
  assert (M : m = Mod [] (B"primarykey") [] [] [] \/ m = Mod [] (B"foo") [] [] []).
  { change (tag (B"primarykey foo")) with [Mod [] (B"primarykey") [] [] []; Mod [] (B"foo") [] [] []] in R.
    inversion R as [ds m1 ms1 C|ds ds' m1 ms1 m2 N R']; subst; [left; reflexivity|].
    assert (ds' = []) as -> by (inversion N as [? D ?|?]; [discriminate D|reflexivity]).
    inversion R' as [ds m1 ms1 C|ds ds' m1 ms1 m2 N' R'']; subst; [right; reflexivity|]. inversion R''. }
  destruct M as [-> | ->]; [|discriminate P1]. rewrite E in W. clear - O W Q.
  apply (C121_silent Postgres (Some (B"id")) _) with (path := [B"primarykey"]) (c := UnknownModifier (B"foo")) in O. apply O.
  change (tag (B"primarykey")) with [Mod [] (B"primarykey") [] [] []].
  eapply t_inside with (m := Mod [] (B"primarykey") [] [] []) (path := []); [apply (r_here Postgres Column [] (Mod [] (B"primarykey") [] [] [])); intros _; reflexivity|exact Q|exact W].
Qed.
(** So are the keys of a foreign key after a wrong rule or an index: a right place is [foreignkey.ondelete]. *)
Theorem C121_refuted_rules : exists ms,
  tag_notes Postgres None ms = [([B"foreignkey"; B"onupdate"], UnknownValue (B"a")); ([B"foreignkey"; B"onupdate"; B"ondelete"], UnknownValue (B"b"))] /\
  tag_wrong Postgres Table [] ms [B"foreignkey"; B"ondelete"] (UnknownValue (B"b")).
Proof.
  exists (tag (B"foreignkey={x references=t onupdate=a ondelete=b}")). split; [vm_compute; reflexivity|].
  set (ms := tag _). vm_compute in ms. subst ms.
  match goal with |- tag_wrong _ _ _ [?m] _ _ => set (m0 := m) end.
  assert (P : exists m', parsed_value (scope [] m0) = Ok m' /\ own_value (m_value m') = true /\ In (Mod [] (B"ondelete") (B"b") [] []) (m_subs m')).
  { eexists. split; [vm_compute; reflexivity|]. split; [vm_compute; reflexivity|]. vm_compute. auto 10. }
  destruct P as (m' & P & V & I).
  eapply (t_inside Postgres Table [] [m0] Foreign (scope [] m0) [B"ondelete"]); [apply (r_here Postgres Table [] m0); intros X; discriminate X|reflexivity|].
  eapply (w_inside Postgres Foreign Rule [] (scope [] m0) m' (Mod [] (B"ondelete") (B"b") [] [])); [cbn; auto|exact P|intros _; exact V|exact I|reflexivity|reflexivity|].
  apply w_rule. cbn. intuition discriminate.
Qed.

(** ** Texts *)
Lemma dotted_join l : join (B".") l = dotted l.
Proof. induction l as [|x [|y l] IH]; [reflexivity|reflexivity|]. change (join (B".") (x :: y :: l)) with (x ++ B"." ++ join (B".") (y :: l)). rewrite IH. reflexivity. Qed.
Lemma place_line l : lo_struct l <> [] -> lo_field l <> [] -> place l = lo_struct l ++ B"." ++ lo_field l ++ B": ".
Proof. unfold place. destruct (lo_struct l); [contradiction|]. destruct (lo_field l); [contradiction|]. reflexivity. Qed.
(** The command, for a field with a name. *)
Theorem C121_command l msg : lo_struct l <> [] -> lo_field l <> [] -> error_line None l msg = line (lo_struct l) (lo_field l) (lo_keys l) msg.
Proof.
  intros S F. unfold error_line, line. rewrite place_line by assumption. rewrite dotted_join. destruct (lo_field l) as [|x f]; [contradiction|]. cbn [app].
  rewrite <- !app_assoc. cbn [app]. rewrite <- !app_assoc. destruct (lo_keys l) as [|k ks]; cbn [none app]; rewrite <- ?app_assoc; reflexivity.
Qed.
Theorem C121_position pos l msg : error_line (Some pos) l msg = pos ++ B": " ++ error_line None l msg.
Proof. unfold error_line. rewrite <- app_assoc. reflexivity. Qed.
(** The linter: the same, if there are keys and no percent signs. *)
Theorem C121_linter_partial l msg : lo_struct l <> [] -> lo_field l <> [] -> lo_keys l <> [] -> ~ In "%"%char (line (lo_struct l) (lo_field l) (lo_keys l) msg) ->
  lint l msg = Text (line (lo_struct l) (lo_field l) (lo_keys l) msg).
Proof.
  intros S F K N. rewrite <- C121_command in * by assumption. unfold lint. cbv zeta.
  assert (E : diagnostic l msg = error_line None l msg) by (unfold diagnostic, error_line; destruct (lo_keys l); [contradiction|]; cbn [none app]; rewrite <- !app_assoc; reflexivity).
  rewrite E, printf_plain; [reflexivity|exact N|apply le_n].
Qed.
(** In general it shows a garbled form of the text with a colon too many where there are no keys. *)
Theorem C121_linter l msg t : lint l msg = Text t -> garbled (place l ++ dotted (lo_keys l) ++ B": " ++ msg) t.
Proof.
  unfold lint. cbv zeta. destruct (printf _ _ None) as [s|] eqn:P; [|discriminate]. intros E. injection E as <-. apply printf_garbled in P.
  unfold diagnostic in P. rewrite dotted_join in P. exact P.
Qed.
Definition unknown (s : bytes) : bytes := B"unknown modifier """ ++ s ++ B"""".
Theorem C121_refuted_keyless : let l := Location (B"ACTOR") (B"ACTOR_ID") [] in
  lint l (unknown (B"foo")) = Text (B"ACTOR.ACTOR_ID: : unknown modifier ""foo""") /\
  error_line None l (unknown (B"foo")) = B"ACTOR.ACTOR_ID: unknown modifier ""foo""" /\ ~ C121_statement_texts.
Proof.
  split; [vm_compute; reflexivity|]. split; [vm_compute; reflexivity|]. intros H.
  destruct (H (Location (B"ACTOR") (B"ACTOR_ID") []) (unknown (B"foo"))) as (_ & E); [discriminate|]. vm_compute in E. discriminate E.
Qed.
Theorem C121_refuted_percent : let l := Location (B"ACTOR") (B"ACTOR_ID") [B"index"] in
  lint l (unknown (B"50%d")) = Text (B"ACTOR.ACTOR_ID: index: unknown modifier ""50%!d(MISSING)""") /\
  error_line None l (unknown (B"50%d")) = B"ACTOR.ACTOR_ID: index: unknown modifier ""50%d""".
Proof. split; vm_compute; reflexivity. Qed.
(** The tag of the embedded TableStruct: the struct is not named; two tables with the same mistake have the same line. *)
Theorem C121_refuted_tables s s' keys msg : error_line None (Location s [] keys) msg = error_line None (Location s' [] keys) msg /\
  lint (Location s [] keys) msg = lint (Location s' [] keys) msg.
Proof. unfold lint, diagnostic, error_line, place. cbn [lo_struct lo_field lo_keys is_empty negb]. rewrite !andb_false_r. split; reflexivity. Qed.

(** ** Examples *)
Example C121_example_places : orderly MySQL Column (tag (B"foo notnull index={. using=hash colour=red}")) /\
  tag_notes MySQL (Some (B"id")) (tag (B"foo notnull index={. using=hash colour=red}")) =
    [([], UnknownModifier (B"foo")); ([B"index"], UnknownModifier (B"colour"))].
Proof.
  split; [|vm_compute; reflexivity]. set (ms := tag _). vm_compute in ms. subst ms. split.
  - intros a m b x E I Q. destruct a as [|y a]; [injection E as <- <-; left; reflexivity|]. injection E as _ E.
    destruct a as [|z a]; [injection E as <- <-; right; left; reflexivity|]. injection E as _ E. destruct a as [|u a]; [injection E as _ <-; destruct I|]. injection E as _ E. destruct a; discriminate E.
  - intros ds m m' q [<-|[<-|[<-|[]]]] Q J; vm_compute in Q; try discriminate Q; injection Q as <-; cbn in J; intuition discriminate.
Qed.
Example C121_example_dialects : tag_notes MySQL (Some (B"id")) (tag (B"dialect=sqlite index={. colour=red} mysql:foo")) = [([], UnknownModifier (B"foo"))] /\
  tag_notes SQLite (Some (B"id")) (tag (B"dialect=sqlite index={. colour=red} mysql:foo")) = [([B"index"], UnknownModifier (B"colour"))].
Proof. split; vm_compute; reflexivity. Qed.
Example C121_example_texts : lint (Location (B"ACTOR") (B"ACTOR_ID") [B"foreignkey"; B"ondelete"]) (B"unknown value ""x""") = Text (B"ACTOR.ACTOR_ID: foreignkey.ondelete: unknown value ""x""").
Proof. vm_compute. reflexivity. Qed.

(** A whole column with two mistakes. *)
Example C121_example_parser : let t := ModelCatalog.Table [] (B"t") [] false [] [] [] false in
  exists p', parse_column (fun _ => false) MySQL (B"id") (B"sq.NumberField") (Parser (new_cache []) t [] [] []) (tag (B"foo notnull index={. colour=red}")) = Ok p' /\
  pa_reports p' = [UnknownModifier (B"foo"); UnknownModifier (B"colour")].
Proof. eexists. split; vm_compute; reflexivity. Qed.

Print Assumptions C121_complaints.
Print Assumptions C121_parser.
Print Assumptions C121_partial.
Print Assumptions C121_refuted.
Print Assumptions C121_linter_partial.
Print Assumptions C121_linter.
