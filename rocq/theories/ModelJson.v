(** Model of schema.json: what dump writes (dump_cmd.go:331-345, 424-440, 531-545: json.NewEncoder, SetIndent("", "  "),
    Encode) and what generate and load read (generate_cmd.go:322-335, 358-368, 390-459: json.NewDecoder, Decode), with
    encoding/json of Go 1.18.

    Simplified: the text is written with its indentation at once; a slice without elements is the same as a nil slice; the
    pairs of a map are in the order of their keys; the letters of keys are compared as ASCII; the nesting is not limited;
    the capacity of a slice is its length; after an error the catalog does not matter. *)
From Verif Require Import GoStr ModelArray SpecArray.

(** ** Values of Go *)
(** The types of the fields of Catalog and of what is in it.  Each field has the tag [json:",omitempty"]. *)
Inductive shape := TString | TBool | TInt | TList (t : shape) | TMap | TStruct (fs : list (bytes * shape)).
Inductive gval :=
  GString (s : bytes) | GBool (b : bool) | GInt (z : Z) | GList (l : list gval) | GMap (m : list (bytes * bytes))
| GStruct (fs : list (bytes * gval)).
Fixpoint zero (t : shape) : gval :=
  match t with
  | TString => GString [] | TBool => GBool false | TInt => GInt 0 | TList _ => GList [] | TMap => GMap []
  | TStruct fs => GStruct (map (fun f => (fst f, zero (snd f))) fs)
  end.

(** ** Texts *)
Inductive jtree := TNull | TTrue | TFalse | TNumber (s : bytes) | TText (s : bytes) | TItems (l : list jtree) | TObject (l : list (bytes * jtree)).

(** utf8.DecodeRune: the length of the character at the beginning, 0 if there is none. *)
Definition bv (a : ascii) : N := N_of_ascii a.
Definition within (lo hi : N) (a : ascii) : bool := ((lo <=? bv a) && (bv a <=? hi))%N.
Definition cont : ascii -> bool := within 128 191.
Definition two (a b : ascii) : bool := within 194 223 a && cont b.
Definition three (a b c : ascii) : bool :=
  (within 224 224 a && within 160 191 b || (within 225 236 a || within 238 239 a) && cont b || within 237 237 a && within 128 159 b) && cont c.
Definition four (a b c d : ascii) : bool :=
  (within 240 240 a && within 144 191 b || within 241 243 a && cont b || within 244 244 a && within 128 143 b) && cont c && cont d.
Definition rune_len (s : bytes) : nat :=
  match s with
  | [] => 0
  | a :: s1 =>
      if (bv a <? 128)%N then 1
      else match s1 with
           | [] => 0
           | b :: s2 =>
               if two a b then 2
               else match s2 with
                    | [] => 0
                    | c :: s3 => if three a b c then 3 else match s3 with [] => 0 | d :: _ => if four a b c d then 4 else 0 end
                    end
           end
  end.

(** encodeState.string (encoding/json, encode.go) with escapeHTML. *)
Definition hex (n : N) : ascii := ascii_of_N (if n <? 10 then 48 + n else 87 + n)%N.
Definition backslash : ascii := ascii_of_nat 92.
Definition escape (a : ascii) : bytes :=
  if ceqb a dquote || ceqb a backslash then [backslash; a]
  else if ceqb a LF then [backslash; "n"%char]
  else if ceqb a CR then [backslash; "r"%char]
  else if ceqb a TAB then [backslash; "t"%char]
  else if (bv a <? 32)%N || ceqb a "<"%char || ceqb a ">"%char || ceqb a "&"%char then
    backslash :: B"u00" ++ [hex (bv a / 16); hex (bv a mod 16)]
  else [a].
(** U+2028 and U+2029. *)
Definition separator (a b c : ascii) : bool := within 226 226 a && within 128 128 b && within 168 169 c.
Definition char_text (k : nat) (s : bytes) : bytes :=
  match k, s with
  | 0, _ => backslash :: B"ufffd"
  | 1, a :: _ => escape a
  | 3, a :: b :: c :: _ => if separator a b c then backslash :: B"u202" ++ [hex (bv c mod 16)] else [a; b; c]
  | _, _ => firstn k s
  end.
Fixpoint quote_body (fuel : nat) (s : bytes) : bytes :=
  match fuel, s with
  | S fuel, _ :: _ => let k := rune_len s in char_text k s ++ quote_body fuel (skipn (Nat.max 1 k) s)
  | _, _ => []
  end.
Definition quote_text (s : bytes) : bytes := dquote :: quote_body (List.length s) s ++ [dquote].

(** isEmptyValue and the encoders, encode.go: empty fields are left out. *)
Definition empty_value (v : gval) : bool :=
  match v with
  | GString [] | GBool false | GInt 0 | GList [] | GMap [] => true
  | _ => false
  end.
Fixpoint tree (v : gval) : jtree :=
  match v with
  | GString s => TText s
  | GBool b => if b then TTrue else TFalse
  | GInt z => TNumber (Z_dec z)
  | GList l => TItems (map tree l)
  | GMap m => TObject (map (fun p => (fst p, TText (snd p))) m)
  | GStruct fs => TObject (flat_map (fun f => if empty_value (snd f) then [] else [(fst f, tree (snd f))]) fs)
  end.
(** json.Indent with two spaces. *)
Definition new_line (n : nat) : bytes := LF :: repeat SPACE (2 * n).
Fixpoint print (n : nat) (j : jtree) : bytes :=
  match j with
  | TNull => B"null" | TTrue => B"true" | TFalse => B"false"
  | TNumber s => s
  | TText s => quote_text s
  | TItems [] => B"[]"
  | TItems l => B"[" ++ join (B",") (map (fun x => new_line (S n) ++ print (S n) x) l) ++ new_line n ++ B"]"
  | TObject [] => B"{}"
  | TObject l => B"{" ++ join (B",") (map (fun p => new_line (S n) ++ quote_text (fst p) ++ B": " ++ print (S n) (snd p)) l) ++ new_line n ++ B"}"
  end.
(** Encoder.Encode. *)
Definition encode_value (v : gval) : bytes := print 0 (tree v) ++ [LF].

(** ** Reading *)
(** utf8.EncodeRune. *)
Definition rune_bytes (n : N) : bytes :=
  map ascii_of_N
    (if n <? 128 then [n]
     else if n <? 2048 then [192 + n / 64; 128 + n mod 64]
     else if n <? 65536 then [224 + n / 4096; 128 + n / 64 mod 64; 128 + n mod 64]
     else [240 + n / 262144; 128 + n / 4096 mod 64; 128 + n / 64 mod 64; 128 + n mod 64])%N.
Definition bad_rune : bytes := rune_bytes 65533.
Definition hex_value (a : ascii) : option N :=
  if within 48 57 a then Some (bv a - 48)%N
  else if within 97 102 a then Some (bv a - 87)%N
  else if within 65 70 a then Some (bv a - 55)%N
  else None.
(** getu4, decode.go. *)
Definition hex4 (s : bytes) : option (N * bytes) :=
  match s with
  | a :: b :: c :: d :: s' =>
      match hex_value a, hex_value b, hex_value c, hex_value d with
      | Some x, Some y, Some z, Some w => Some (((x * 16 + y) * 16 + z) * 16 + w, s')%N
      | _, _, _, _ => None
      end
  | _ => None
  end.
(** One character of a string: unquoteBytes, decode.go. *)
Definition escaped (s : bytes) : option (bytes * bytes) :=
  match s with
  | e :: s' =>
      if ceqb e dquote || ceqb e backslash || ceqb e "/"%char then Some ([e], s')
      else if ceqb e "b"%char then Some ([ascii_of_nat 8], s')
      else if ceqb e "f"%char then Some ([ascii_of_nat 12], s')
      else if ceqb e "n"%char then Some ([LF], s')
      else if ceqb e "r"%char then Some ([CR], s')
      else if ceqb e "t"%char then Some ([TAB], s')
      else if ceqb e "u"%char then
        match hex4 s' with
        | Some (n, r) =>
            if (55296 <=? n)%N && (n <=? 57343)%N then
              match r with
              | x :: y :: r' =>
                  if ceqb x backslash && ceqb y "u"%char then
                    match hex4 r' with
                    | Some (m, r'') =>
                        if (n <=? 56319)%N && (56320 <=? m)%N && (m <=? 57343)%N
                        then Some (rune_bytes (65536 + (n - 55296) * 1024 + (m - 56320)), r'')%N
                        else Some (bad_rune, r)
                    | None => Some (bad_rune, r)
                    end
                  else Some (bad_rune, r)
              | _ => Some (bad_rune, r)
              end
            else Some (rune_bytes n, r)
        | None => None
        end
      else None
  | [] => None
  end.
(** The rest of a string after the quotation mark. *)
Fixpoint text_rest (fuel : nat) (s : bytes) : option (bytes * bytes) :=
  match fuel, s with
  | S fuel, c :: s' =>
      let more (o r : bytes) := match text_rest fuel r with Some (t, r') => Some (o ++ t, r') | None => None end in
      if ceqb c dquote then Some ([], s')
      else if ceqb c backslash then match escaped s' with Some (o, r) => more o r | None => None end
      else if (bv c <? 32)%N then None
      else match rune_len s with 0 => more bad_rune s' | k => more (firstn k s) (skipn k s) end
  | _, _ => None
  end.
Definition read_text (s : bytes) : option (bytes * bytes) := text_rest (S (List.length s)) s.

(** scanner.go. *)
Definition is_ws (c : ascii) : bool := ceqb c SPACE || ceqb c LF || ceqb c CR || ceqb c TAB.
Fixpoint skip_ws (s : bytes) : bytes := match s with c :: s' => if is_ws c then skip_ws s' else s | [] => [] end.
Definition in_word (c : ascii) : bool :=
  negb (is_ws c || ceqb c ","%char || ceqb c "]"%char || ceqb c "}"%char || ceqb c ":"%char || ceqb c "["%char || ceqb c "{"%char || ceqb c dquote).
Fixpoint word (s : bytes) : bytes * bytes :=
  match s with c :: s' => if in_word c then let (w, r) := word s' in (c :: w, r) else ([], s) | [] => ([], []) end.
Definition word_value (w : bytes) : option jtree :=
  if beqb w (B"null") then Some TNull else if beqb w (B"true") then Some TTrue else if beqb w (B"false") then Some TFalse
  else if json_number w then Some (TNumber w) else None.
Fixpoint tree_at (fuel : nat) (s : bytes) : option (jtree * bytes) :=
  match fuel with
  | O => None
  | S fuel =>
      match skip_ws s with
      | [] => None
      | c :: r =>
          if ceqb c dquote then match read_text r with Some (t, r') => Some (TText t, r') | None => None end
          else if ceqb c "["%char then
            match skip_ws r with
            | x :: r' => if ceqb x "]"%char then Some (TItems [], r')
                         else match items fuel r with Some (l, r'') => Some (TItems l, r'') | None => None end
            | [] => None
            end
          else if ceqb c "{"%char then
            match skip_ws r with
            | x :: r' => if ceqb x "}"%char then Some (TObject [], r')
                         else match members fuel r with Some (l, r'') => Some (TObject l, r'') | None => None end
            | [] => None
            end
          else let (w, r') := word (c :: r) in match word_value w with Some v => Some (v, r') | None => None end
      end
  end
with items (fuel : nat) (s : bytes) : option (list jtree * bytes) :=
  match fuel with
  | O => None
  | S fuel =>
      match tree_at fuel s with
      | Some (v, r) =>
          match skip_ws r with
          | c :: r' =>
              if ceqb c ","%char then match items fuel r' with Some (l, r'') => Some (v :: l, r'') | None => None end
              else if ceqb c "]"%char then Some ([v], r') else None
          | [] => None
          end
      | None => None
      end
  end
with members (fuel : nat) (s : bytes) : option (list (bytes * jtree) * bytes) :=
  match fuel with
  | O => None
  | S fuel =>
      match skip_ws s with
      | q :: r =>
          if ceqb q dquote then
            match read_text r with
            | Some (k, r1) =>
                match skip_ws r1 with
                | colon :: r2 =>
                    if ceqb colon ":"%char then
                      match tree_at fuel r2 with
                      | Some (v, r3) =>
                          match skip_ws r3 with
                          | c :: r' =>
                              if ceqb c ","%char then match members fuel r' with Some (l, r'') => Some ((k, v) :: l, r'') | None => None end
                              else if ceqb c "}"%char then Some ([(k, v)], r') else None
                          | [] => None
                          end
                      | None => None
                      end
                    else None
                | [] => None
                end
            | None => None
            end
          else None
      | [] => None
      end
  end.

(** ** Storing what was read: decodeState.value, array, object, literalStore, decode.go *)
(** foldName (decode.go) for keys compared with names in ASCII: two characters outside of ASCII have letters of ASCII as
    their other case, the long s (U+017F) and the Kelvin sign (U+212A). *)
Fixpoint fold_name (s : bytes) : bytes :=
  match s with
  | [] => []
  | a :: s1 =>
      match s1 with
      | b :: s2 =>
          if within 197 197 a && within 191 191 b then "s"%char :: fold_name s2
          else match s2 with
               | c :: s3 => if within 226 226 a && within 132 132 b && within 170 170 c then "k"%char :: fold_name s3 else to_lower_c a :: fold_name s1
               | [] => to_lower_c a :: fold_name s1
               end
      | [] => to_lower_c a :: fold_name s1
      end
  end.
(** The field for a key: the one of that name, else one of that name in other letters. *)
Definition field_for (fs : list (bytes * shape)) (k : bytes) : option (bytes * shape) :=
  match find (fun f => beqb (fst f) k) fs with
  | Some f => Some f
  | None => find (fun f => beqb (fold_name (fst f)) (fold_name k)) fs
  end.
Fixpoint field_value (vs : list (bytes * gval)) (k : bytes) : gval :=
  match vs with [] => GBool false | v :: vs' => if beqb (fst v) k then snd v else field_value vs' k end.
Fixpoint set_field (vs : list (bytes * gval)) (k : bytes) (x : gval) : list (bytes * gval) :=
  match vs with [] => [] | v :: vs' => if beqb (fst v) k then (fst v, x) :: vs' else v :: set_field vs' k x end.
Fixpoint put_key (m : list (bytes * bytes)) (k v : bytes) : list (bytes * bytes) :=
  match m with
  | [] => [(k, v)]
  | p :: m' => if beqb (fst p) k then (k, v) :: m' else if bltb (fst p) k then p :: put_key m' k v else (k, v) :: m
  end.
(** [assign t old j]: the value of type [t] after [j] was decoded into a variable with the value [old]. *)
Fixpoint assign (t : shape) (old : gval) (j : jtree) {struct j} : result gval :=
  match j with
  | TNull => match t with TList _ | TMap => Ok (zero t) | _ => Ok old end
  | TTrue => match t with TBool => Ok (GBool true) | _ => Err end
  | TFalse => match t with TBool => Ok (GBool false) | _ => Err end
  | TText s => match t with TString => Ok (GString s) | _ => Err end
  | TNumber s => match t with TInt => bindr (parse_int s) (fun z => Ok (GInt z)) | _ => Err end
  | TItems js =>
      match t with
      | TList e =>
          bindr ((fix store (js : list jtree) (os : list gval) {struct js} : result (list gval) :=
                    match js with
                    | [] => Ok []
                    | j :: js' =>
                        bindr (assign e (match os with o :: _ => o | [] => zero e end) j) (fun v =>
                        bindr (store js' (List.tl os)) (fun l => Ok (v :: l)))
                    end) js (match old with GList os => os | _ => [] end))
                (fun l => Ok (GList l))
      | _ => Err
      end
  | TObject ms =>
      match t with
      | TMap =>
          bindr ((fix store (ms : list (bytes * jtree)) (m : list (bytes * bytes)) {struct ms} : result (list (bytes * bytes)) :=
                    match ms with
                    | [] => Ok m
                    | (k, TText s) :: ms' => store ms' (put_key m k s)
                    | (k, TNull) :: ms' => store ms' (put_key m k [])
                    | _ => Err
                    end) ms (match old with GMap m => m | _ => [] end))
                (fun m => Ok (GMap m))
      | TStruct fs =>
          bindr ((fix store (ms : list (bytes * jtree)) (vs : list (bytes * gval)) {struct ms} : result (list (bytes * gval)) :=
                    match ms with
                    | [] => Ok vs
                    | p :: ms' =>
                        let (k, x) := p in
                        match field_for fs k with
                        | Some f => bindr (assign (snd f) (field_value vs (fst f)) x) (fun v => store ms' (set_field vs (fst f) v))
                        | None => store ms' vs
                        end
                    end) ms (match old with GStruct vs => vs | _ => [] end))
                (fun vs => Ok (GStruct vs))
      | _ => Err
      end
  end.
(** Decoder.Decode: what follows the first value is not looked at. *)
Definition decode_into (t : shape) (text : bytes) (old : gval) : result gval :=
  match tree_at (S (List.length text)) text with Some (j, _) => assign t old j | None => Err end.

(** ** Catalogs *)
Definition strings : shape := TList TString.
(** Trigger, ddl.go:539-564. *)
Definition trigger_shape := TStruct [(B"TableSchema", TString); (B"TableName", TString); (B"TriggerName", TString); (B"IsViewTrigger", TBool);
  (B"SQL", TString); (B"Attrs", TMap); (B"Comment", TString); (B"Ignore", TBool)].
(** Index, ddl.go:492-536. *)
Definition index_shape := TStruct [(B"TableSchema", TString); (B"TableName", TString); (B"IndexName", TString); (B"IndexType", TString);
  (B"IsViewIndex", TBool); (B"IsUnique", TBool); (B"Columns", strings); (B"IncludeColumns", strings); (B"Descending", TList TBool);
  (B"Opclasses", strings); (B"Predicate", TString); (B"SQL", TString); (B"Comment", TString); (B"Ignore", TBool)].
(** Constraint, ddl.go:410-489. *)
Definition constraint_shape := TStruct [(B"TableSchema", TString); (B"TableName", TString); (B"ConstraintName", TString);
  (B"ConstraintType", TString); (B"Columns", strings); (B"ReferencesSchema", TString); (B"ReferencesTable", TString);
  (B"ReferencesColumns", strings); (B"UpdateRule", TString); (B"DeleteRule", TString); (B"MatchOption", TString); (B"CheckExpr", TString);
  (B"ExclusionOperators", strings); (B"ExclusionIndexType", TString); (B"ExclusionPredicate", TString); (B"IsDeferrable", TBool);
  (B"IsInitiallyDeferred", TBool); (B"IsClustered", TBool); (B"IsNotValid", TBool); (B"Comment", TString); (B"Ignore", TBool)].
(** Column, ddl.go:286-407. *)
Definition column_shape := TStruct [(B"TableSchema", TString); (B"TableName", TString); (B"ColumnName", TString); (B"ColumnType", TString);
  (B"CharacterLength", TString); (B"NumericPrecision", TString); (B"NumericScale", TString); (B"DomainName", TString); (B"IsEnum", TBool);
  (B"IsNotNull", TBool); (B"IsPrimaryKey", TBool); (B"IsUnique", TBool); (B"IsAutoincrement", TBool); (B"ReferencesSchema", TString);
  (B"ReferencesTable", TString); (B"ReferencesColumn", TString); (B"UpdateRule", TString); (B"DeleteRule", TString); (B"IsDeferrable", TBool);
  (B"IsInitiallyDeferred", TBool); (B"ColumnIdentity", TString); (B"ColumnDefault", TString); (B"OnUpdateCurrentTimestamp", TBool);
  (B"IsGenerated", TBool); (B"GeneratedExpr", TString); (B"GeneratedExprStored", TBool); (B"CollationName", TString); (B"Comment", TString);
  (B"Ignore", TBool)].
(** Table, ddl.go:252-283. *)
Definition table_shape := TStruct [(B"TableSchema", TString); (B"TableName", TString); (B"SQL", TString); (B"IsVirtual", TBool);
  (B"Columns", TList column_shape); (B"Constraints", TList constraint_shape); (B"Indexes", TList index_shape); (B"Triggers", TList trigger_shape);
  (B"Comment", TString); (B"Ignore", TBool)].
(** View, ddl.go:214-249. *)
Definition view_shape := TStruct [(B"ViewSchema", TString); (B"ViewName", TString); (B"IsMaterialized", TBool); (B"SQL", TString);
  (B"Columns", strings); (B"ColumnTypes", strings); (B"EnumColumns", strings); (B"Indexes", TList index_shape); (B"Triggers", TList trigger_shape);
  (B"Comment", TString); (B"Ignore", TBool)].
(** Routine, ddl.go:184-211. *)
Definition routine_shape := TStruct [(B"RoutineSchema", TString); (B"RoutineName", TString); (B"IdentityArguments", TString);
  (B"RoutineType", TString); (B"SQL", TString); (B"Attrs", TMap); (B"Comment", TString); (B"Ignore", TBool)].
(** Domain, ddl.go:148-180. *)
Definition domain_shape := TStruct [(B"DomainSchema", TString); (B"DomainName", TString); (B"UnderlyingType", TString);
  (B"CollationName", TString); (B"IsNotNull", TBool); (B"ColumnDefault", TString); (B"CheckNames", strings); (B"CheckExprs", strings);
  (B"Comment", TString); (B"Ignore", TBool)].
(** Enum, ddl.go:129-145. *)
Definition enum_shape := TStruct [(B"EnumSchema", TString); (B"EnumName", TString); (B"EnumLabels", strings); (B"Comment", TString);
  (B"Ignore", TBool)].
(** Schema, ddl.go:88-126. *)
Definition schema_shape := TStruct [(B"SchemaName", TString); (B"Tables", TList table_shape); (B"Views", TList view_shape); (B"ViewsValid", TBool);
  (B"Routines", TList routine_shape); (B"RoutinesValid", TBool); (B"Enums", TList enum_shape); (B"EnumsValid", TBool);
  (B"Domains", TList domain_shape); (B"DomainsValid", TBool); (B"Comment", TString); (B"Ignore", TBool)].
(** Catalog and VersionNums, ddl.go:52-85, 1086. *)
Definition catalog_shape := TStruct [(B"Dialect", TString); (B"VersionNums", TList TInt); (B"CatalogName", TString); (B"CurrentSchema", TString);
  (B"DefaultCollation", TString); (B"DefaultCollationValid", TBool); (B"Extensions", strings); (B"ExtensionsValid", TBool);
  (B"Schemas", TList schema_shape)].
Definition empty_catalog : gval := zero catalog_shape.
(** json.NewDecoder(file).Decode(catalog). *)
Definition read_catalog (text : bytes) (cat : gval) : result gval := decode_into catalog_shape text cat.
