(** Specification vocabulary for the package filters. *)
From Verif Require Import Base Version_model Range_model Requirement_model Requirement_spec Filter_model.

(** the exclusions [ex] and inclusions [inc], read as tests, hide [p] *)
Definition hides {A} (holds : A -> fpkg -> Prop) (ex inc : list A) (p : fpkg) : Prop :=
  (exists r, In r ex /\ holds r p) /\ forall r, In r inc -> ~ holds r p.
(** the rules of a map that concern a package of this name *)
Definition concerns (m : rmap) (name : text) (r : rule) : Prop :=
  exists k rs, In (k, rs) m /\ In r rs /\ (k = None \/ k = Some name).
(** a map has each key once *)
Definition proper_map (m : rmap) : Prop := NoDup (map fst m).
(** all rules of the map are for all packages *)
Definition global (m : rmap) : Prop := forall k rs, In (k, rs) m -> k = None.
(** rules whose text is read back as the same rule *)
Definition keeps (gl re : text -> option (text -> bool)) (r : rule) : Prop :=
  match r with
  | RGlob pat => gl pat <> None
  | RRegex pat => re pat <> None
  | RRange q => printable q
  | RTime _ _ _ => False
  end.

(** ** Globs *)
(** what a glob means: a star is any text, a question mark any character *)
Inductive glob_match : text -> text -> Prop :=
| gm_nil : glob_match [] []
| gm_star p a b : glob_match p b -> glob_match ("*"%char :: p) (a ++ b)
| gm_any p c s : glob_match p s -> glob_match ("?"%char :: p) (c :: s)
| gm_char p c s : c <> "*"%char -> c <> "?"%char -> glob_match p s -> glob_match (c :: p) (c :: s).

(** The documented meaning of a fragment of regular expressions: between "^" and "$", a sequence of characters, escaped special
    characters, "." (any character but a line feed) and ".*". *)
Inductive atom := ALit (c : ascii) | AAny | AAnys.
Definition re_special (c : ascii) : bool := existsb (Ascii.eqb c) (T "\.()[]{}|^$+*?").
Fixpoint re_body (s : text) : option (list atom) :=
  match s with
  | [] => None
  | c :: s' =>
      if Ascii.eqb c "$" then match s' with [] => Some [] | _ => None end
      else if Ascii.eqb c "\" then
        match s' with
        | d :: s'' => if re_special d then match re_body s'' with Some l => Some (ALit d :: l) | None => None end else None
        | [] => None end
      else if Ascii.eqb c "." then
        match s' with
        | d :: s'' => if Ascii.eqb d "*" then match re_body s'' with Some l => Some (AAnys :: l) | None => None end
                      else match re_body s' with Some l => Some (AAny :: l) | None => None end
        | [] => None end
      else if re_special c then None
      else match re_body s' with Some l => Some (ALit c :: l) | None => None end
  end.
Definition re_fragment (s : text) : option (list atom) :=
  match s with c :: s' => if Ascii.eqb c "^" then re_body s' else None | [] => None end.
Definition line_feed : ascii := ascii_of_N 10.
Inductive re_match : list atom -> text -> Prop :=
| rm_nil : re_match [] []
| rm_lit c l s : re_match l s -> re_match (ALit c :: l) (c :: s)
| rm_any c l s : c <> line_feed -> re_match l s -> re_match (AAny :: l) (c :: s)
| rm_anys l a b : ~ In line_feed a -> re_match l b -> re_match (AAnys :: l) (a ++ b).
(** the library does on the fragment what is documented *)
Definition faithful (re : text -> option (text -> bool)) : Prop :=
  forall s l, re_fragment s = Some l -> exists m, re s = Some m /\ forall t, m t = true <-> re_match l t.

(** ** Rules given as values *)
(** rules that the package-filter crate keeps as they are *)
Definition kept_rule (re : text -> option (text -> bool)) (r : prule) : Prop :=
  match r with
  | PGlob pat _ => pat <> []
  | PRegex pat f => re pat <> None /\ f <> FVersion
  | PRange q (Some f) => parse_range (r_str q) = Some q /\ ~ In "-"%char f
  | PRange q None => parse_range (r_str q) = Some q /\
      forall f s, r_str q = f ++ "-"%char :: s -> ~ In "-"%char f -> parse_range s = None
  | PTime ts _ => (ts <= I64_MAX)%N
  end.
(** rule texts without comma and closing bracket *)
Definition simple_pod (d : pod) : Prop :=
  (forall c, In c (pd_type d) -> is_lower c = true) /\ ~ In ","%char (pd_pattern d) /\ ~ In "]"%char (pd_pattern d).
Definition simple_filter (f : pfilter) : Prop := forall d, In d (pf_ex f ++ pf_in f) -> simple_pod d.
