(** What is said about package files.  The reader of Python texts here is written from the language reference, for the part of the language
    in which values are assigned to names: texts in double quotes, names, lists and dictionaries; everything else is [None]. *)
From Verif Require Import Base Maps Json Version_model Rex_model Requirement_model Pyfile_model Pkgfile_model.
Open Scope char_scope.

(** ** Reading Python: tokens *)
Inductive token := KName (x : text) | KText (s : text) | KOpen | KClose | KBrace | KUnbrace | KColon | KComma | KEq | KLine.
(** where the reader is: between tokens (at the start of a line or not), in a comment, in a name, in a text with one or three quotes *)
Inductive mode := MStart | MBetween | MComment | MName (x : text) | MText (three : bool) (s : text).
Definition name_start (c : ascii) : bool := is_alpha c || Ascii.eqb c "_".
Definition name_more (c : ascii) : bool := is_alnum c || Ascii.eqb c "_".
(** characters no source text holds here: NUL and the carriage return *)
Definition bad_char (c : ascii) : bool := Ascii.eqb c "000" || Ascii.eqb c CR.
(** what a backslash and a character stand for; the numeric escapes are left out *)
Definition escape (c : ascii) : option text :=
  if Ascii.eqb c NL then Some [] else
  if Ascii.eqb c BS || Ascii.eqb c DQ || Ascii.eqb c SQ then Some [c] else
  if Ascii.eqb c "n" then Some [NL] else if Ascii.eqb c "t" then Some ["009"] else if Ascii.eqb c "r" then Some [CR] else
  if Ascii.eqb c "a" then Some ["007"] else if Ascii.eqb c "b" then Some ["008"] else if Ascii.eqb c "f" then Some ["012"] else
  if Ascii.eqb c "v" then Some ["011"] else
  if is_digit c || Ascii.eqb c "x" || Ascii.eqb c "u" || Ascii.eqb c "U" || Ascii.eqb c "N" then None else Some [BS; c].
Definition oc {A} (a : A) (o : option (list A)) : option (list A) := match o with Some l => Some (a :: l) | None => None end.
(** [d] brackets are open; inside brackets lines do not end *)
Fixpoint tokens (m : mode) (d : nat) (s : text) {struct s} : option (list token) :=
  match s with
  | [] => match m with MName _ | MText _ _ => None | _ => Some [] end
  | c :: r =>
      if bad_char c then None else
      match m with
      | MComment => if Ascii.eqb c NL then (if Nat.eqb d 0 then oc KLine (tokens MStart d r) else tokens MBetween d r) else tokens MComment d r
      | MName x =>
          match r with
          | c' :: _ => if name_more c' then tokens (MName (x ++ [c])) d r else oc (KName (x ++ [c])) (tokens MBetween d r)
          | [] => Some [KName (x ++ [c])]
          end
      | MText three t =>
          if Ascii.eqb c BS then
            match r with
            | e :: r' => if bad_char e then None else match escape e with Some u => tokens (MText three (t ++ u)) d r' | None => None end
            | [] => None
            end
          else if Ascii.eqb c DQ then
            if three then
              match r with
              | c1 :: c2 :: r' => if Ascii.eqb c1 DQ && Ascii.eqb c2 DQ then oc (KText t) (tokens MBetween d r') else tokens (MText three (t ++ [c])) d r
              | _ => None
              end
            else oc (KText t) (tokens MBetween d r)
          else if Ascii.eqb c NL && negb three then None
          else tokens (MText three (t ++ [c])) d r
      | MStart | MBetween =>
          if Ascii.eqb c NL then (if Nat.eqb d 0 then oc KLine (tokens MStart d r) else tokens MBetween d r)
          else if Ascii.eqb c "#" then tokens MComment d r
          else if Ascii.eqb c " " || Ascii.eqb c "009" then
            match m with MStart => if Nat.eqb d 0 then None else tokens MBetween d r | _ => tokens MBetween d r end
          else if Ascii.eqb c DQ then
            match r with
            | c1 :: c2 :: r' => if Ascii.eqb c1 DQ && Ascii.eqb c2 DQ then tokens (MText true []) d r' else tokens (MText false []) d r
            | _ => tokens (MText false []) d r
            end
          else if Ascii.eqb c "[" then oc KOpen (tokens MBetween (S d) r)
          else if Ascii.eqb c "]" then oc KClose (tokens MBetween (pred d) r)
          else if Ascii.eqb c "{" then oc KBrace (tokens MBetween (S d) r)
          else if Ascii.eqb c "}" then oc KUnbrace (tokens MBetween (pred d) r)
          else if Ascii.eqb c ":" then oc KColon (tokens MBetween d r)
          else if Ascii.eqb c "," then oc KComma (tokens MBetween d r)
          else if Ascii.eqb c "=" then oc KEq (tokens MBetween d r)
          else if name_start c then
            match r with
            | c' :: _ => if name_more c' then tokens (MName [c]) d r else oc (KName [c]) (tokens MBetween d r)
            | [] => Some [KName [c]]
            end
          else None
      end
  end.

(** ** Reading Python: statements *)
(** what is open: a list with its items so far, a dictionary with its items so far and a key that waits for its value *)
Inductive frame := FList (es : list pexpr) | FDict (kvs : list (option pexpr * pexpr)) (key : option pexpr).
(** what is expected: a statement, the sign after a name, a value, or what follows a value *)
Inductive expect := XStmt | XSign (x : text) | XValue (x : text) (fs : list frame) | XAfter (x : text) (fs : list frame) (e : pexpr).
(** the words of the language are no names *)
Definition keywords : list text :=
  map T ["False"; "None"; "True"; "and"; "as"; "assert"; "async"; "await"; "break"; "class"; "continue"; "def"; "del"; "elif"; "else"; "except"; "finally";
         "for"; "from"; "global"; "if"; "import"; "in"; "is"; "lambda"; "nonlocal"; "not"; "or"; "pass"; "raise"; "return"; "try"; "while"; "with"; "yield"]%string.
Definition name_expr (x : text) : option pexpr :=
  if text_eqb x (T "True") then Some (EConst (KBool true)) else if text_eqb x (T "False") then Some (EConst (KBool false)) else
  if text_eqb x (T "None") then Some (EConst KNone) else if mem_text x keywords then None else Some (EName x).
Fixpoint statements (k : expect) (l : list token) {struct l} : option (list stmt) :=
  match l with
  | [] => match k with XStmt => Some [] | XAfter x [] e => Some [SAssign [EName x] e] | _ => None end
  | t :: l' =>
      match k with
      | XStmt => match t with KLine => statements XStmt l' | KName x => if mem_text x keywords then None else statements (XSign x) l' | _ => None end
      | XSign x => match t with KEq => statements (XValue x []) l' | _ => None end
      | XValue x fs =>
          match t with
          | KText s => statements (XAfter x fs (EConst (KStr s))) l'
          | KName y => match name_expr y with Some e => statements (XAfter x fs e) l' | None => None end
          | KOpen => statements (XValue x (FList [] :: fs)) l'
          | KClose => match fs with FList es :: fs' => statements (XAfter x fs' (EList es)) l' | _ => None end
          | KBrace => statements (XValue x (FDict [] None :: fs)) l'
          | KUnbrace => match fs with FDict kvs None :: fs' => statements (XAfter x fs' (EDict kvs)) l' | _ => None end
          | _ => None
          end
      | XAfter x fs e =>
          match fs, t with
          | [], KLine => match statements XStmt l' with Some r => Some (SAssign [EName x] e :: r) | None => None end
          | FList es :: fs', KComma => statements (XValue x (FList (es ++ [e]) :: fs')) l'
          | FList es :: fs', KClose => statements (XAfter x fs' (EList (es ++ [e]))) l'
          | FDict kvs None :: fs', KColon => statements (XValue x (FDict kvs (Some e) :: fs')) l'
          | FDict kvs (Some key) :: fs', KComma => statements (XValue x (FDict (kvs ++ [(Some key, e)]) None :: fs')) l'
          | FDict kvs (Some key) :: fs', KUnbrace => statements (XAfter x fs' (EDict (kvs ++ [(Some key, e)]))) l'
          | _, _ => None
          end
      end
  end.
(** the statements of a text *)
Definition python_reads (s : text) : option (list stmt) := match tokens MStart 0 s with Some l => statements XStmt l | None => None end.

(** ** Packages *)
(** no quote, no backslash, no line feed, carriage return or NUL *)
Definition plain (s : text) : Prop := forall c, In c s -> ~ In c [DQ; BS; NL; CR; "000"].
(** quotes are allowed, backslashes are not *)
Definition quotable (s : text) : Prop := forall c, In c s -> ~ In c [BS; NL; CR; "000"].
Definition plain_opt (o : option text) : Prop := match o with Some s => plain s | None => True end.
Definition plain_all (l : list text) : Prop := forall s, In s l -> plain s.
(** the package that has these fields and no others *)
Definition only_eight (p : pkg) : pkg :=
  set_tools (k_tools p) (set_variants (k_variants p) (set_build_requires (k_build_requires p) (set_requires (k_requires p)
    (set_authors (k_authors p) (set_description (k_description p) (set_version (k_version p) (new_pkg (k_name p)))))))).
Definition only_nine (p : pkg) : pkg := set_private_build_requires (k_private_build_requires p) (only_eight p).
(** ... with what the two other writers of package.py keep *)
Definition only_ten (p : pkg) : pkg := set_uuid (k_uuid p) (only_nine p).
Definition only_eleven (p : pkg) : pkg := set_uuid (k_uuid p) (set_cachable (k_cachable p) (set_relocatable (k_relocatable p) (only_eight p))).
(** the package without what serde does not write: the function of the commands, the configuration, the developer mark, the path, the included modules *)
Definition only_written (p : pkg) : pkg :=
  mkPkg (k_name p) (k_version p) (k_description p) (k_authors p) (k_requires p) (k_build_requires p) (k_private_build_requires p) (k_variants p) (k_tools p)
    (k_commands p) (k_build_command p) (k_build_system p) (k_pre_commands p) (k_post_commands p) (k_pre_test_commands p) (k_pre_build_commands p) (k_tests p)
    (k_requires_rez_version p) (k_uuid p) (k_help p) (k_relocatable p) (k_cachable p) (k_timestamp p) (k_revision p) (k_changelog p) (k_release_message p)
    (k_previous_version p) (k_previous_revision p) (k_vcs p) (k_format_version p) (k_base p) (k_has_plugins p) (k_plugin_for p) (k_hashed_variants p) (k_preprocess p)
    None None [] None None.
(** texts that can be written between quotes *)
Definition opt_version (p : pkg) : option text := match k_version p with Some v => Some (v_str v) | None => None end.
Definition plain_eight (p : pkg) : Prop :=
  plain (k_name p) /\ plain_opt (opt_version p) /\ plain_opt (k_description p) /\ plain_all (k_authors p) /\ plain_all (k_requires p) /\
  plain_all (k_build_requires p) /\ (forall v, In v (k_variants p) -> plain_all v) /\ plain_all (k_tools p).
Definition quotable_opt (o : option text) : Prop := match o with Some s => quotable s | None => True end.
(** ... when quotes are escaped in the description and the authors *)
Definition plain_ten (p : pkg) : Prop :=
  plain (k_name p) /\ plain_opt (opt_version p) /\ quotable_opt (k_description p) /\ (forall a, In a (k_authors p) -> quotable a) /\ plain_all (k_requires p) /\
  plain_all (k_build_requires p) /\ plain_all (k_private_build_requires p) /\ (forall v, In v (k_variants p) -> plain_all v) /\ plain_all (k_tools p) /\ plain_opt (k_uuid p).
(** neither flags nor functions nor tests *)
Definition values_only (p : pkg) : Prop :=
  k_relocatable p = None /\ k_cachable p = None /\ k_commands p = None /\ k_pre_commands p = None /\ k_post_commands p = None /\ k_tests p = [].
(** the description as it is read back *)
Definition framed_description (p : pkg) : option text :=
  match k_description p with Some d => Some (if Nat.ltb 40 (length d) then NL :: d ++ [NL] else d) | None => None end.
(** no character that opens a tag *)
Definition tagless (s : text) : Prop := ~ In "<" s.
(** what an XML text is read for *)
Definition only_three (p : pkg) : pkg := set_description (k_description p) (set_version (k_version p) (new_pkg (k_name p))).
Definition tagless_five (p : pkg) : Prop :=
  tagless (k_name p) /\ (forall v, k_version p = Some v -> tagless (v_str v)) /\ (forall d, k_description p = Some d -> tagless d) /\
  (forall a, In a (k_authors p) -> tagless a) /\ (forall r, In r (k_requires p) -> tagless r).
(** what the options ask for: a field is kept unless it is excluded or a list of fields is given in which it is not *)
Definition kept (o : options) (x : text) : bool :=
  match o_exclude o with Some l => negb (mem_text x l) | None => true end && match o_only o with Some l => mem_text x l | None => true end.
(** all versions of the package were read from a text *)
Definition version_ok (o : option version) : Prop := match o with Some v => parse_version (v_str v) = Some v | None => True end.
Definition versions_ok (p : pkg) : Prop := version_ok (k_version p) /\ version_ok (k_previous_version p).
(** a package a loader accepts *)
Definition acceptable (p : pkg) : Prop :=
  k_name p <> [] /\ (forall c, In c (k_name p) -> is_alnum c = true \/ c = "_" \/ c = "-") /\
  (forall v, k_version p = Some v -> v_str v <> []) /\
  ~ In [] (k_requires p) /\ ~ In [] (k_build_requires p) /\ ~ In [] (k_private_build_requires p) /\ (forall l, In l (k_variants p) -> ~ In [] l).
(** the numbers fit and no test is named twice *)
Definition sized (p : pkg) : Prop :=
  (forall z, k_timestamp p = Some z -> (- 9223372036854775808 <= z <= 9223372036854775807)%Z) /\
  (forall z, k_format_version p = Some z -> (- 2147483648 <= z <= 2147483647)%Z) /\
  NoDup (map fst (k_tests p)).

(** ** Libraries *)
(** the YAML tree of a JSON tree *)
Fixpoint as_yaml (j : json) : yaml :=
  match j with
  | JNull => YNull
  | JBool b => YBool b
  | JNum n => YNum n
  | JStr s => YStr s
  | JArr l => YSeq (map as_yaml l)
  | JObj m => YMap ((fix go (m : list (text * json)) := match m with [] => [] | (k, v) :: m' => (YStr k, as_yaml v) :: go m' end) m)
  end.
(** a tree the libraries can hold: no key twice, integers of 64 bits; TOML has no null *)
Fixpoint names_once (l : list text) : bool := match l with [] => true | x :: l' => negb (mem_text x l') && names_once l' end.
Fixpoint fits (nulls : bool) (j : json) : bool :=
  match j with
  | JNull => nulls
  | JNum n => ((-9223372036854775808 <=? n) && (n <=? 9223372036854775807))%Z
  | JArr l => forallb (fits nulls) l
  | JObj m => names_once (map fst m) && (fix go (m : list (text * json)) := match m with [] => true | (_, v) :: m' => fits nulls v && go m' end) m
  | _ => true
  end.
(** what is printed is read back *)
Definition json_library (L : library) : Prop := forall b j, fits true j = true -> l_unjson L (l_json L b j) = Some j.
Definition yaml_library (L : library) : Prop := forall j, fits true j = true -> l_unyaml L (l_yaml L j) = Some (as_yaml j).
Definition toml_library (L : library) : Prop := forall m, fits false (JObj m) = true -> exists m', l_untoml L (l_toml L m) = Some m' /\ Permutation m' m.
Definition gzip_library (L : library) : Prop := forall n s, l_gunzip L (l_gzip L n s) = Some s.
Definition bin_library (L : library) : Prop := forall l, l_unbin L (l_bin L l) = Some l.
(** the reader of Python reads assignments of values as the language says *)
Definition python_library (L : library) : Prop := forall s f, python_reads s = Some f -> l_python L s = Some f.
(** a field is asked for: no list of fields is given, or it is in the list *)
Definition asked (o : options) (x : text) : bool := match o_only o with Some l => mem_text x l | None => true end.
(** the formats that hold a tree of values *)
Definition data_format (f : format) : Prop := f = Yaml \/ f = Json \/ f = YamlGz \/ f = JsonGz.
