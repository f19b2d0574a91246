(** Specification vocabulary for requirements. *)
From Verif Require Import Base Version_model Version_spec Range_model Requirement_model.

(** ** Comparison of dotted texts part by part *)

(** [t] is written as a decimal number (an optional plus sign, digits) below 2^64 *)
Definition number (t : text) (n : N) : Prop :=
  exists d, (t = d \/ t = "+"%char :: d) /\ d <> [] /\ digits_only d /\
            digits_val d = n /\ (n <= U64_MAX)%N.
Definition not_number (t : text) : Prop := forall n, ~ number t n.
(** two parts count as equal / the first as smaller: by value when both are numbers, otherwise as text *)
Definition part_same (a b : text) : Prop :=
  (exists n, number a n /\ number b n) \/ a = b.
Definition part_below (a b : text) : Prop :=
  (exists m n, number a m /\ number b n /\ (m < n)%N) \/
  ((not_number a \/ not_number b) /\ text_cmp a b = Lt).

(** positions present in both lists agree *)
Definition leads_same (xs ys : list text) : Prop :=
  forall i a b, nth_error xs i = Some a -> nth_error ys i = Some b -> part_same a b.
(** the first position present in both lists where they differ is smaller on the left *)
Definition leads_below (xs ys : list text) : Prop :=
  exists i a b, nth_error xs i = Some a /\ nth_error ys i = Some b /\ part_below a b /\
    forall j x y, j < i -> nth_error xs j = Some x -> nth_error ys j = Some y -> part_same x y.

(** [ps] are the dot-separated parts of [s] *)
Definition dot_parts (s : text) (ps : list text) : Prop :=
  ps <> [] /\ Forall (fun p => ~ In "."%char p) ps /\ s = join (T ".") ps.

(** [v] starts with the tokens of [p] *)
Definition token_prefix (p v : version) : Prop := exists rest, v_tokens v = v_tokens p ++ rest.
(** tokens are canonical: no superfluous leading zeros, numbers below 2^64 *)
Definition canonical_tokens (v : version) : Prop :=
  parsed v /\ small_version v /\ Forall canonical_token (v_tokens v).

(** ** Meaning of constraint trees: the compound constructors, over any reading [leaf] of the basic ones *)
Inductive meets (leaf : vconstraint -> version -> Prop) (ver : version) : vconstraint -> Prop :=
| meets_all cs : (forall c, In c cs -> meets leaf ver c) -> meets leaf ver (CMultiple cs)
| meets_some cs c : In c cs -> meets leaf ver c -> meets leaf ver (CAlternative cs)
| meets_exclude vs : (forall v, In v vs -> vcmp ver v <> Eq) -> meets leaf ver (CExclude vs)
| meets_leaf c : match c with CMultiple _ | CAlternative _ | CExclude _ => False | _ => True end ->
                 leaf c ver -> meets leaf ver c.

(** reading of the basic constraints *)
Definition basic_reading (c : vconstraint) (ver : version) : Prop :=
  exists vs, dot_parts (v_str ver) vs /\
  match c with
  | CExact v => exists cs, dot_parts (v_str v) cs /\ leads_same vs cs
  | CLt v => exists cs, dot_parts (v_str v) cs /\ leads_below vs cs
  | CGt v => exists cs, dot_parts (v_str v) cs /\ leads_below cs vs
  | CLe v => exists cs, dot_parts (v_str v) cs /\ (leads_below vs cs \/ leads_same vs cs)
  | CGe v => exists cs, dot_parts (v_str v) cs /\ (leads_below cs vs \/ leads_same vs cs)
  | CCompatible v =>
      (* all parts but the last are spelled the same, the last is at least the given one *)
      exists pre c x rest, dot_parts (v_str v) (pre ++ [c]) /\ vs = pre ++ x :: rest /\
        (part_same x c \/ part_below c x)
  | CRange lo hi => vcmp ver lo <> Lt /\ vcmp ver hi = Lt
  | CWildcard p =>
      (* the parts before the first star, exactly; without a star, all parts *)
      exists ps, dot_parts p ps /\
        (ps = vs \/ exists pre post, ps = pre ++ T "*" :: post /\ exists rest, vs = pre ++ rest)
  | CPrefix p => length (v_tokens p) <= length (v_tokens ver) /\
                 forall i a b, nth_error (v_tokens ver) i = Some a -> nth_error (v_tokens p) i = Some b ->
                               compare_token a b = Eq
  | CAny => True
  | _ => False
  end.

(** ** Text syntax *)

(** the characters of package names *)
Definition name_text (s : text) : Prop := s <> [] /\ forallb name_char s = true.
(** a version with a non-empty spelling, as the parser produces *)
Definition written (v : version) : Prop := parsed v /\ v_str v <> [].

Definition op_text (o : op) : text :=
  match o with
  | OpEq => T "==" | OpGe => T ">=" | OpLe => T "<=" | OpGt => T ">" | OpLt => T "<" | OpCompat => T "~="
  end.

(** constraints that are a non-empty list of operator/version pairs, written with commas *)
Definition of_ops (l : list (op * version)) : vconstraint :=
  match l with
  | [(o, v)] => op_constraint o v
  | _ => CMultiple (map (fun '(o, v) => op_constraint o v) l)
  end.
(** no spelled version is empty, except after a hyphen *)
Fixpoint spelled (c : vconstraint) : Prop :=
  match c with
  | CExact v | CGt v | CGe v | CLt v | CLe v | CCompatible v => v_str v <> []
  | CMultiple cs => fold_right (fun c P => spelled c /\ P) True cs
  | _ => True
  end.
(** constraints a user can write after a package name and that display faithfully *)
Inductive printable_constraint (name : text) : option vconstraint -> Prop :=
| pc_none : ~ In "-"%char name -> printable_constraint name None
| pc_ops l : l <> [] -> (forall o v, In (o, v) l -> written v) ->
             printable_constraint name (Some (of_ops l))
| pc_prefix v : parsed v -> ~ In "-"%char name -> printable_constraint name (Some (CPrefix v))
| pc_wild p : (exists a b, a <> [] /\ p = a ++ "*"%char :: b) -> ~ In newline p -> ~ In "["%char p ->
              trim p = p -> printable_constraint name (Some (CWildcard p)).

(** conditions that display faithfully *)
Definition clean (s : text) : Prop :=
  ~ In quote s /\ ~ In "]"%char s /\ ~ In "!"%char s /\ ~ In "="%char s /\ ~ In newline s.
Definition printable_platform (c : platform_cond) : Prop := clean (pc_platform c) /\ pc_arch c = None.
Definition printable_env (c : env_cond) : Prop :=
  clean (ec_var c) /\
  match ec_expected c with Some e => clean e | None => ec_negate c = false end.
Definition printable (r : requirement) : Prop :=
  name_text (rq_name r) /\
  match rq_namespace r with Some n => name_text n | None => True end /\
  rq_weak r && rq_conflict r = false /\
  printable_constraint (rq_name r) (rq_constraint r) /\
  Forall printable_platform (rq_platform r) /\ Forall printable_env (rq_env r).

(** ** Package requirements *)

(** an operator of a version spec and its spelling *)
Definition spec_op_text (o : spec_op) : text :=
  match o with
  | SGe => T ">=" | SLe => T "<=" | SNe => T "!=" | SCompat => T "~=" | SEq => T "=="
  | SGt => T ">" | SLt => T "<"
  end.
Definition spec_text (l : list (spec_op * version)) : text :=
  join (T ",") (map (fun '(o, v) => spec_op_text o ++ v_str v) l).

(** two requirements mean the same: same package, same polarity, same versions *)
Definition same_meaning (a b : requirement) : Prop :=
  rq_name a = rq_name b /\ rq_weak a = rq_weak b /\ rq_conflict a = rq_conflict b /\
  forall v, r_satisfied a v = r_satisfied b v.

(** what [operator version] asks of a version *)
Definition op_reading (o : spec_op) (v ver : version) : Prop :=
  match o with
  | SGe => basic_reading (CGe v) ver
  | SLe => basic_reading (CLe v) ver
  | SNe => vcmp ver v <> Eq
  | SCompat => basic_reading (CCompatible v) ver
  | SEq => basic_reading (CExact v) ver
  | SGt => basic_reading (CGt v) ver
  | SLt => basic_reading (CLt v) ver
  end.
(** the five comparison operators and ~= of requirement texts, as spec operators *)
Definition spec_of_op (o : op) : spec_op :=
  match o with
  | OpEq => SEq | OpGe => SGe | OpLe => SLe | OpGt => SGt | OpLt => SLt | OpCompat => SCompat
  end.
(** a list of operator/version pairs as written after a package name *)
Definition request_text (l : list (op * version)) : text :=
  join (T ",") (map (fun '(o, v) => op_text o ++ v_str v) l).
(** the polarity marker in front of a request *)
Definition mark (weak conflict : bool) : text :=
  if conflict then T "!" else if weak then T "~" else [].
