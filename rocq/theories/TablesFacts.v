(** Schema-qualified structs (C98) and the file that is written (C99). *)
From Coq Require Import Lia.
From Verif Require Import GoStr GoStrFacts ModelCatalog ModelCache ModelDiff ModelGoTag ModelModifier SpecModifier ModelStructs ModelParser SpecGo SpecStructs GoText StructsText
  ReadColumns DiffLookup VersionFacts DdlFacts ModelViews SpecViews ViewFacts ModelTables SpecTables.

Lemma unquote_field : forall f, field_ok f -> match field_tag f with
  | None => f_tag f = [] /\ modifiers_string (f_mods f) = []
  | Some lit => go_unquote lit = Some (tag_body f) end.
Proof.
  intros f (_ & T & P & N & L). unfold field_tag. destruct (is_empty (f_tag f) && is_empty (modifiers_string (f_mods f))) eqn:E.
  - apply andb_true_iff in E as (E1 & E2). destruct (f_tag f); [|discriminate]. destruct (modifiers_string (f_mods f)); [|discriminate]. auto.
  - apply unquote_body; [apply body_no_tick; [exact T|apply string_no_tick; assumption]|apply body_no_cr].
Qed.
Lemma said_field : forall f go, field_ok f -> said_name go (field_tag f) = match f_tag f with [] => to_lower go | t => t end.
Proof.
  intros f go H. pose proof (unquote_field f H) as U. destruct (field_tag f) as [lit|].
  - unfold said_name. rewrite U, tag_sq. reflexivity.
  - destruct U as (-> & _). reflexivity.
Qed.
Lemma same_mods : forall f f', field_ok f -> field_ok f' -> f_mods f = f_mods f' -> same_modifiers (field_tag f) (field_tag f').
Proof.
  assert (Q : forall f, field_ok f -> match field_tag f with None => [] | Some lit => match go_unquote lit with Some s => tag_get (B"ddl") s | None => [] end end
    = modifiers_string (f_mods f)).
  { intros f H. pose proof (unquote_field f H) as U. destruct (field_tag f) as [lit|]; [rewrite U; apply tag_ddl|destruct U as (_ & ->); reflexivity]. }
  intros f f' H H' E. unfold same_modifiers. rewrite (Q f H), (Q f' H'), E. reflexivity.
Qed.

(** ** The struct of a table *)
Lemma table_shape : forall cat t s, read_table cat t = Ok s ->
  exists mods fields, s = TableStruct (go_name (tb_name t)) (Field [] (B"sq.TableStruct") (table_tag (ct_current cat) t) mods :: fields).
Proof.
  intros cat t s E. unfold read_table in E. destruct (nest_indexes _ _ _) as [l nested]. apply bindr_inv in E as ((fields & added & ixs) & _ & E).
  destruct (match primarykey_entry l with Some _ => _ | None => _ end) as [mods added']. injection E as <-. eexists. eexists. reflexivity.
Qed.
Definition dotless (s : bytes) : Prop := ~ In "."%char s.
Definition qualified_name (sc n : bytes) : bytes := match sc with [] => go_name n | _ => go_name (sc ++ B"_" ++ n) end.
Definition qualified_tag (cur sc : bytes) (t : table) : bytes := match sc with [] => table_tag cur t | _ => sc ++ B"." ++ tb_name t end.

Lemma qualify_table : forall cur t mods fields, go_word (tb_name t) -> dotless (tb_schema t) ->
  let sc := schema_or cur (tb_schema t) in
  qualify cur (TableStruct (go_name (tb_name t)) (Field [] (B"sq.TableStruct") (table_tag cur t) mods :: fields))
  = TableStruct (qualified_name sc (tb_name t)) (Field [] (B"sq.TableStruct") (qualified_tag cur sc t) mods :: fields).
Proof.
  intros cur t mods fields W D sc. unfold qualify. cbn [ts_fields ts_name f_tag f_name f_type f_mods].
  pose proof (word_no_dot _ W) as Wd. assert (N : tb_name t <> []) by (destruct W as ((x & s & -> & _) & _); discriminate).
  set (name := if is_empty (table_tag cur t) then to_lower (go_name (tb_name t)) else table_tag cur t).
  assert (H : cut "."%char name = (tb_name t, []) /\ (tb_schema t = [] \/ tb_schema t = cur) \/ cut "."%char name = (tb_schema t, tb_name t) /\ tb_schema t <> []).
  { unfold name, table_tag, cut. destruct (tb_schema t) as [|x s] eqn:Es; cbn [is_empty negb andb orb].
    - left. split; [|left; reflexivity]. destruct (needs_quoting (tb_name t)) eqn:Q.
      + assert (is_empty (tb_name t) = false) as -> by (destruct (tb_name t); [congruence|reflexivity]). rewrite (proj2 (cut_byte_None _ _)) by exact Wd. reflexivity.
      + cbn [is_empty]. rewrite lower_go by assumption. rewrite (proj2 (cut_byte_None _ _)) by exact Wd. reflexivity.
    - destruct (beqb_spec (x :: s) cur) as [Ec|Ec]; cbn [negb orb].
      + destruct (needs_quoting (tb_name t)) eqn:Q; cbn [app is_empty].
        * right. split; [|discriminate]. change (x :: s ++ B"." ++ tb_name t) with ((x :: s) ++ "."%char :: tb_name t). rewrite cut_byte_app by exact D. reflexivity.
        * left. rewrite lower_go by assumption. rewrite (proj2 (cut_byte_None _ _)) by exact Wd. split; [reflexivity|right; exact Ec].
      + right. cbn [app is_empty]. split; [|discriminate]. change (x :: s ++ B"." ++ tb_name t) with ((x :: s) ++ "."%char :: tb_name t). rewrite cut_byte_app by exact D. reflexivity. }
  unfold sc, qualified_name, qualified_tag, schema_or. destruct H as [(-> & S)|(-> & S)].
  - cbn [is_empty]. destruct cur as [|y cur]; cbn [is_empty andb negb].
    + destruct S as [-> | ->]; reflexivity.
    + destruct S as [-> | ->]; reflexivity.
  - assert (is_empty (tb_name t) = false) as -> by (destruct (tb_name t); [congruence|reflexivity]).
    destruct (tb_schema t) as [|x s] eqn:Es; [congruence|]. reflexivity.
Qed.

Lemma word_app : forall a b, go_word a -> go_word b -> go_word (a ++ B"_" ++ b).
Proof.
  intros a b ((x & s & -> & Dx) & Ha) (_ & Hb). split; [exists x, (s ++ B"_" ++ b); split; [reflexivity|exact Dx]|].
  intros c H. rewrite !in_app_iff in H. destruct H as [H|[[<-|[]]|H]]; [apply Ha, H|right; right; left; reflexivity|apply Hb, H].
Qed.
Definition sc_word (s : bytes) : Prop := s = [] \/ go_word s.
Lemma sc_dotless : forall s, sc_word s -> dotless s.
Proof. intros s [-> |H]; [intros []|apply word_no_dot, H]. Qed.

(** A table and its struct, qualified. *)
Definition shaped (cat : catalog) (t : table) (s s' : table_struct) : Prop :=
  let cur := ct_current cat in let sc := schema_or cur (tb_schema t) in
  exists mods fields,
    s = TableStruct (go_name (tb_name t)) (Field [] (B"sq.TableStruct") (table_tag cur t) mods :: fields) /\
    s' = TableStruct (qualified_name sc (tb_name t)) (Field [] (B"sq.TableStruct") (qualified_tag cur sc t) mods :: fields).
Lemma qualify_ok : forall cat t s, table_ok t -> sc_word (tb_schema t) -> sc_word (ct_current cat) -> read_table cat t = Ok s ->
  shaped cat t s (qualify (ct_current cat) s) /\ struct_ok s /\ struct_ok (qualify (ct_current cat) s).
Proof.
  intros cat t s T S C E. pose proof (read_table_ok _ _ _ T E) as K. apply table_shape in E as (mods & fields & ->). pose proof (proj1 T) as W.
  assert (Q := qualify_table (ct_current cat) t mods fields W (sc_dotless _ S)). cbv zeta in Q. rewrite Q.
  split; [exists mods, fields; split; reflexivity|]. split; [exact K|]. destruct K as (_ & _ & F & HC). inversion F as [|? ? Ff Fs]; subst.
  assert (SC : sc_word (schema_or (ct_current cat) (tb_schema t))) by (unfold schema_or; destruct (tb_schema t); assumption).
  set (sc := schema_or (ct_current cat) (tb_schema t)) in *. split; [|split; [|split]]; cbn [ts_name ts_fields].
  - unfold qualified_name. destruct sc as [|x r] eqn:Es; [apply go_name_ident, W|]. destruct SC as [X|SC]; [discriminate|]. apply go_name_ident, (word_app _ _ SC W).
  - eexists. eexists. split; [reflexivity|]. split; reflexivity.
  - constructor; [|exact Fs]. destruct Ff as (A & B0 & C0 & D0 & E0). cbn [f_name f_type f_tag f_mods] in *. split; [exact A|]. split; [|split; [exact C0|split; [exact D0|exact E0]]].
    cbn [f_tag]. unfold qualified_tag. destruct sc as [|x r] eqn:Es; [exact B0|]. destruct SC as [X|SC]; [discriminate|]. intro X. rewrite !in_app_iff in X.
    destruct X as [X|[[X|[]]|X]]; [exact (word_no_tick _ SC X)|discriminate|exact (word_no_tick _ W X)].
  - destruct HC as (f & Hf & N1 & N2). destruct Hf as [<-|Hf]; [cbn in N1; congruence|]. exists f. split; [right; exact Hf|auto].
Qed.

Lemma shaped_says : forall cat t s s', go_word (tb_name t) -> sc_word (tb_schema t) -> sc_word (ct_current cat) -> shaped cat t s s' -> struct_ok s' ->
  stands_for (ct_current cat) (go_struct_of s') t.
Proof.
  intros cat t s s' W S C (mods & fields & _ & ->) (_ & _ & F & _). inversion F as [|? ? Ff Fs]; subst. unfold stands_for.
  cbn [go_struct_of gs_fields gs_name ts_fields ts_name map]. eexists. eexists. split; [reflexivity|]. split; [reflexivity|]. split; [reflexivity|].
  unfold go_of at 1. cbn [gf_tag]. rewrite said_field by exact Ff. cbn [f_tag]. unfold qualified_tag, qualified_name.
  assert (SC : sc_word (schema_or (ct_current cat) (tb_schema t))) by (unfold schema_or; destruct (tb_schema t); assumption).
  assert (N : tb_name t <> []) by (destruct W as ((x & r & -> & _) & _); discriminate).
  destruct (schema_or (ct_current cat) (tb_schema t)) as [|x r] eqn:Es.
  - right. unfold table_tag. assert (E : tb_schema t = [] /\ ct_current cat = []) by (unfold schema_or in Es; destruct (tb_schema t); [auto|discriminate]).
    destruct E as (Et & Ec). rewrite Et. cbn [is_empty negb andb orb]. split; [|split; [apply word_no_dot, W|symmetry; exact Ec]].
    destruct (needs_quoting (tb_name t)) eqn:Q; [destruct (tb_name t); [congruence|reflexivity]|apply lower_go; assumption].
  - left. split; [reflexivity|]. apply (sc_dotless _ SC).
Qed.
Lemma shaped_same : forall cat t s s', shaped cat t s s' -> struct_ok s -> struct_ok s' -> same_otherwise (go_struct_of s) (go_struct_of s').
Proof.
  intros cat t s s' (mods & fields & -> & ->) (_ & _ & F & _) (_ & _ & F' & _). inversion F as [|? ? Ff _]; subst. inversion F' as [|? ? Ff' _]; subst.
  eexists. eexists. eexists. split; [reflexivity|]. split; [reflexivity|]. apply same_mods; [exact Ff|exact Ff'|reflexivity].
Qed.

Lemma all_shaped : forall cat ts l, Forall table_ok ts -> Forall (fun t => sc_word (tb_schema t)) ts -> sc_word (ct_current cat) -> mapr (read_table cat) ts = Ok l ->
  Forall2 (fun t s => shaped cat t s (qualify (ct_current cat) s) /\ struct_ok s /\ struct_ok (qualify (ct_current cat) s)) ts l.
Proof.
  intros cat ts. induction ts as [|t ts IH]; intros l T S C E; cbn [mapr] in E; [injection E as <-; constructor|].
  apply bindr_inv in E as (s & Es & E). apply bindr_inv in E as (l' & El & E). injection E as <-. inversion T; subst. inversion S; subst.
  constructor; [apply qualify_ok; assumption|apply IH; assumption].
Qed.

(** ** Names *)
Lemma go_name_app : forall a b, go_name (a ++ b) = go_name a ++ go_name b.
Proof. intros a b. unfold go_name, replace_byte, to_upper. rewrite flat_map_app, map_app. reflexivity. Qed.
Lemma go_name_no_underscore : forall s, (forall c, In c s -> c <> underscore /\ c <> SPACE) -> ~ In underscore (go_name s).
Proof.
  induction s as [|a s IH]; intros H X; [exact X|]. change (go_name (a :: s)) with (go_name ([a] ++ s)) in X. rewrite go_name_app, in_app_iff in X. destruct X as [X|X].
  - destruct (H a (or_introl eq_refl)) as (A1 & A2). clear - X A1 A2. destruct a as [[] [] [] [] [] [] [] []]; vm_compute in X; destruct X as [X|[]]; try discriminate; first [apply A2; reflexivity|apply A1; reflexivity].
  - exact (IH (fun c Hc => H c (or_intror Hc)) X).
Qed.
Lemma qualified_inj : forall a n b m, a <> [] -> b <> [] -> (forall c, In c a -> c <> underscore /\ c <> SPACE) -> (forall c, In c b -> c <> underscore /\ c <> SPACE) ->
  qualified_name a n = qualified_name b m -> go_name a = go_name b /\ go_name n = go_name m.
Proof.
  intros a n b m Ha Hb Fa Fb E. destruct a as [|x a]; [congruence|]. destruct b as [|y b]; [congruence|]. unfold qualified_name in E. rewrite !go_name_app in E.
  change (go_name (B"_")) with [underscore] in E. cbn [app] in E.
  pose proof (cut_byte_app underscore _ (go_name n) (go_name_no_underscore _ Fa)) as C1. pose proof (cut_byte_app underscore _ (go_name m) (go_name_no_underscore _ Fb)) as C2.
  rewrite E, C2 in C1. injection C1 as -> ->. auto.
Qed.
Lemma NoDup_via : forall {X Y Z} (f : X -> Y) (g : X -> Z) l, NoDup (map g l) -> (forall a b, In a l -> In b l -> f a = f b -> g a = g b) -> NoDup (map f l).
Proof.
  intros X Y Z f g l. induction l as [|a l IH]; intros N H; [constructor|]. cbn [map] in *. inversion N as [|? ? N1 N2]; subst. constructor.
  - intro I. apply in_map_iff in I as (b & E & Hb). apply N1. apply in_map_iff. exists b. split; [|exact Hb]. apply H; [right; exact Hb|left; reflexivity|exact E].
  - apply IH; [exact N2|]. intros x y Hx Hy. apply H; right; assumption.
Qed.
Lemma far_names : forall cat, far_apart cat -> NoDup (map (fun t => qualified_name (schema_or (ct_current cat) (tb_schema t)) (tb_name t)) (tables_of cat)).
Proof.
  intros cat (F & N & S). eapply NoDup_via; [exact N|]. intros a b Ha Hb E. cbn beta in E |- *.
  assert (Q : schema_or (ct_current cat) (tb_schema a) <> [] -> schema_or (ct_current cat) (tb_schema b) <> [] ->
    go_name (schema_or (ct_current cat) (tb_schema a)) = go_name (schema_or (ct_current cat) (tb_schema b)) /\ go_name (tb_name a) = go_name (tb_name b)).
  { intros Qa Qb. apply qualified_inj; [exact Qa|exact Qb|intros c Hc; exact (F a c Ha Hc)|intros c Hc; exact (F b c Hb Hc)|exact E]. }
  destruct S as [S|[S|S]].
  - assert (Z : forall t, schema_or (ct_current cat) (tb_schema t) <> []) by (intro t; unfold schema_or; destruct (tb_schema t); [exact S|discriminate]).
    destruct (Q (Z a) (Z b)) as (-> & ->). reflexivity.
  - rewrite Forall_forall in S. destruct Q as (-> & ->); [| |reflexivity]; unfold schema_or;
      [specialize (S a Ha); destruct (tb_schema a)|specialize (S b Hb); destruct (tb_schema b)]; congruence || discriminate.
  - rewrite Forall_forall in S. rewrite (S a Ha), (S b Hb) in *. cbn [schema_or] in *. destruct (ct_current cat) as [|x c].
    + cbn [qualified_name] in E. rewrite E. reflexivity.
    + destruct Q as (_ & ->); [discriminate|discriminate|reflexivity].
Qed.

(** ** The file *)
Lemma split_mid : forall c a b, split_byte c (a ++ c :: b) = split_byte c a ++ split_byte c b.
Proof.
  intros c a. induction a as [|x a IH]; intro b; cbn [app split_byte].
  - destruct (ceqb_spec c c) as [_|X]; [reflexivity|congruence].
  - rewrite IH. destruct (ceqb x c); [reflexivity|]. destruct (split_byte c a) as [|w ws] eqn:E; [exfalso; exact (split_byte_nonempty c a E)|reflexivity].
Qed.
Lemma split_none : forall c a, ~ In c a -> split_byte c a = [a].
Proof.
  intros c a. induction a as [|x a IH]; intro H; [reflexivity|]. cbn [split_byte]. destruct (ceqb_spec x c) as [->|_]; [exfalso; apply H; left; reflexivity|].
  rewrite IH by (intro X; apply H; right; exact X). reflexivity.
Qed.
Lemma join_snoc : forall sep l (x : bytes), l <> [] -> join sep (l ++ [x]) = join sep l ++ sep ++ x.
Proof.
  intros sep l x. induction l as [|a l IH]; intro H; [congruence|]. destruct l as [|b l]; [reflexivity|]. cbn [app].
  rewrite !(join_cons sep a) by discriminate. change (b :: l ++ [x]) with ((b :: l) ++ [x]). rewrite IH by discriminate. rewrite <- !app_assoc. reflexivity.
Qed.

Lemma base_end : forall p d, ordinary d -> base (p ++ "/"%char :: d) = d.
Proof.
  intros p d (N & S & _). unfold base. rewrite split_mid, (split_none _ d S), filter_app. cbn [filter]. assert (is_empty d = false) as -> by (destruct d; [congruence|reflexivity]).
  cbn [negb]. destruct (p ++ "/"%char :: d) as [|e es] eqn:E; [destruct p; discriminate|]. generalize (filter (fun c => negb (is_empty c)) (split_byte "/"%char p)). intro l.
  destruct (l ++ [d]) as [|y ys] eqn:El; [destruct l; discriminate|]. rewrite <- El. apply last_last.
Qed.
Lemma base_one : forall d, ordinary d -> base d = d.
Proof.
  intros d (N & S & _). unfold base. rewrite (split_none _ d S). cbn [filter]. assert (is_empty d = false) as -> by (destruct d; [congruence|reflexivity]). destruct d; [congruence|reflexivity].
Qed.
Lemma idle_steps : forall r idle st, Forall (fun w => w = [] \/ w = B".") idle -> fold_left (clean_step r) idle st = st.
Proof. intros r idle st H. induction H as [|w l W H IH]; [reflexivity|]. cbn [fold_left]. destruct W as [->| ->]; exact IH. Qed.
Lemma clean_end : forall cs d idle p, ordinary d -> Forall (fun w => w = [] \/ w = B".") idle -> split_byte "/"%char p = cs ++ [d] ++ idle ++ [[]] -> base (clean p) = d.
Proof.
  intros cs d idle p O I E. unfold clean. rewrite E. 
  set (r := rooted p). rewrite fold_left_app, fold_left_app. cbn [fold_left]. set (st := fold_left (clean_step r) cs []).
  rewrite (idle_steps r (idle ++ [[]])) by (apply Forall_app; auto).
  assert (Q : clean_step r st d = d :: st).
  { unfold clean_step. destruct O as (N & _ & N1 & N2).
    assert (is_empty d = false) as -> by (destruct d; [congruence|reflexivity]). destruct (beqb_spec d (B".")); [contradiction|]. destruct (beqb_spec d (B"..")); [contradiction|]. reflexivity. }
  rewrite Q. cbn [rev]. set (l := rev st). set (pre := if r then B"/" else @nil ascii).
  assert (H : exists q, pre ++ join (B"/") (l ++ [d]) = q ++ "/"%char :: d \/ pre ++ join (B"/") (l ++ [d]) = d).
  { destruct l as [|a l'].
    - cbn [app join]. unfold pre. destruct r; [exists []; left; reflexivity|exists []; right; reflexivity].
    - rewrite join_snoc by discriminate. exists (pre ++ join (B"/") (a :: l')). left. rewrite <- app_assoc. reflexivity. }
  transitivity (base (match pre ++ join (B"/") (l ++ [d]) with [] => B"." | q => q end)); [reflexivity|]. destruct H as (q & [H|H]); rewrite H.
  - destruct (q ++ "/"%char :: d) eqn:Eq; [destruct q; discriminate|]. rewrite <- Eq. apply base_end, O.
  - destruct d as [|x d']; [destruct O; congruence|]. apply base_one, O.
Qed.
Lemma split_join : forall c l, l <> [] -> (forall w, In w l -> ~ In c w) -> split_byte c (join [c] l) = l.
Proof.
  intros c l. induction l as [|a l IH]; intros N H; [congruence|]. destruct l as [|b l]; [cbn [join]; apply split_none, H; left; reflexivity|].
  rewrite join_cons by discriminate. cbn [app]. rewrite split_mid, split_none by (apply H; left; reflexivity). rewrite IH; [reflexivity|discriminate|]. intros w Hw. apply H. right. exact Hw.
Qed.
Lemma split_parts : forall c s w, In w (split_byte c s) -> ~ In c w.
Proof.
  intros c s. induction s as [|x s IH]; intros w H; cbn [split_byte] in H; [destruct H as [<-|[]]; intros []|].
  destruct (ceqb_spec x c) as [_|X].
  - destruct H as [<-|H]; [intros []|apply IH, H].
  - destruct (split_byte c s) as [|v vs]; [destruct H as [<-|[]]; intros [E|[]]; congruence|]. destruct H as [<-|H].
    + intros [E|E]; [congruence|]. exact (IH v (or_introl eq_refl) E).
    + apply IH. right. exact H.
Qed.
Lemma split_idle : forall idle f, ~ In "/"%char f -> Forall (fun w => w = [] \/ w = B".") idle ->
  split_byte "/"%char (flat_map (fun w => w ++ B"/") idle ++ f) = idle ++ [f].
Proof.
  intros idle f S H. induction H as [|w l W H IH]; [apply split_none; exact S|]. cbn [flat_map]. rewrite <- !app_assoc.
  change (B"/" ++ flat_map (fun w => w ++ B"/") l ++ f) with ("/"%char :: flat_map (fun w => w ++ B"/") l ++ f). rewrite split_mid, IH.
  destruct W as [->| ->]; reflexivity.
Qed.
Lemma dir_is : forall file d, ordinary d -> in_directory file d -> base (dir file) = d.
Proof.
  intros file d O (p & f & idle & Sf & I & F). unfold dir. pose proof O as (N & S & _).
  assert (H : exists cs, split_byte "/"%char file = (cs ++ [d] ++ idle) ++ [f]).
  { set (rest := flat_map (fun w => w ++ B"/") idle ++ f) in *. destruct F as [-> | ->].
    - exists []. cbn [app]. change (d ++ B"/" ++ rest) with (d ++ "/"%char :: rest). rewrite split_mid, split_none by assumption. unfold rest. rewrite split_idle by assumption. reflexivity.
    - exists (split_byte "/"%char p). change (p ++ B"/" ++ d ++ B"/" ++ rest) with (p ++ "/"%char :: d ++ "/"%char :: rest). rewrite split_mid, split_mid, (split_none _ d) by assumption.
      unfold rest. rewrite split_idle by assumption. rewrite <- !app_assoc. reflexivity. }
  destruct H as (cs & H). pose proof (split_parts "/"%char file) as Pt. rewrite H in *. rewrite removelast_last. apply clean_end with (cs := cs) (idle := idle); [exact O|exact I|].
  change (B"/") with ["/"%char]. rewrite split_join; [rewrite <- !app_assoc; reflexivity|destruct cs; discriminate|].
  intros w Hw. rewrite in_app_iff in Hw. destruct Hw as [Hw|[<-|[]]]; [apply Pt, in_or_app; left; exact Hw|intros []].
Qed.
