(** Model of package requirements.
    Source: crates/rez-next-package/src/requirement/{types,parser,display}.rs and
    crates/rez-next-package/src/package/requirement.rs (paths below are relative to
    crates/rez-next-package/src). *)
From Verif Require Import Base Version_model Range_model.

(** requirement/types.rs:61-89 [VersionConstraint] *)
Inductive vconstraint :=
| CExact (v : version) | CGt (v : version) | CGe (v : version)
| CLt (v : version) | CLe (v : version) | CCompatible (v : version)
| CRange (lo hi : version)
| CMultiple (cs : list vconstraint)
| CAlternative (cs : list vconstraint)
| CExclude (vs : list version)
| CWildcard (pattern : text)
| CPrefix (v : version)
| CAny.

(** requirement/types.rs:39-46 [PlatformCondition] *)
Record platform_cond := mkPlatform { pc_platform : text; pc_arch : option text; pc_negate : bool }.
(** requirement/types.rs:50-57 [EnvCondition] *)
Record env_cond := mkEnvCond { ec_var : text; ec_expected : option text; ec_negate : bool }.

(** requirement/types.rs:10-35 [Requirement]; [conditional_expression] is dropped, no code sets it
    to anything but [None] *)
Record requirement := mkReq {
  rq_name : text;
  rq_constraint : option vconstraint;
  rq_weak : bool;
  rq_conflict : bool;
  rq_platform : list platform_cond;
  rq_env : list env_cond;
  rq_namespace : option text }.

(** requirement/types.rs:93-104 [Requirement::new] *)
Definition req_new (name : text) : requirement := mkReq name None false false [] [] None.

(** requirement/types.rs:341-351 one step of the loop (also 283-287): numbers numerically, the rest as text *)
Definition part_cmp (a b : text) : comparison :=
  match parse_u64 a, parse_u64 b with
  | Some x, Some y => N.compare x y
  | _, _ => text_cmp a b
  end.
(** requirement/types.rs:337-354 *)
Fixpoint parts_cmp (vs cs : list text) : comparison :=
  match vs, cs with
  | v :: vs', c :: cs' => match part_cmp v c with Eq => parts_cmp vs' cs' | o => o end
  | _, _ => Eq
  end.
(** requirement/types.rs:328-355 [cmp_at_depth] *)
Definition cmp_at_depth (ver con : version) : comparison :=
  parts_cmp (split_on "." (v_str ver)) (split_on "." (v_str con)).

(** requirement/types.rs:259-288 [Compatible]: equal text before the last part of the constraint, the
    last part at least the constraint's. Parts past the constraint's length are ignored. *)
Fixpoint compat_parts (vs cs : list text) : bool :=
  match cs, vs with
  | [], _ => true
  | _ :: _, [] => false
  | [c], v :: _ => is_ge (part_cmp v c)
  | c :: cs', v :: vs' => text_eqb v c && compat_parts vs' cs'
  end.

(** requirement/types.rs:304-322 [matches_wildcard] *)
Fixpoint wildcard_parts (ps vs : list text) : bool :=
  match ps, vs with
  | [], [] => true
  | [], _ :: _ => false
  | p :: ps', _ =>
      if text_eqb p (T "*") then true
      else match vs with
           | [] => false
           | v :: vs' => text_eqb p v && wildcard_parts ps' vs'
           end
  end.

(** requirement/types.rs:240-301 [VersionConstraint::is_satisfied_by] *)
Fixpoint c_satisfied (c : vconstraint) (ver : version) : bool :=
  match c with
  | CExact v => is_eq (cmp_at_depth ver v)
  | CGt v => is_gt (cmp_at_depth ver v)
  | CGe v => is_ge (cmp_at_depth ver v)
  | CLt v => is_lt (cmp_at_depth ver v)
  | CLe v => is_le (cmp_at_depth ver v)
  | CCompatible v => compat_parts (split_on "." (v_str ver)) (split_on "." (v_str v))
  | CRange lo hi => v_ge ver lo && v_lt ver hi
  | CMultiple cs => forallb (fun c' => c_satisfied c' ver) cs
  | CAlternative cs => existsb (fun c' => c_satisfied c' ver) cs
  | CExclude vs => negb (existsb (fun v => veq ver v) vs)
  | CWildcard p => wildcard_parts (split_on "." p) (split_on "." (v_str ver))
  | CPrefix p => has_prefix ver p
  | CAny => true
  end.

(** requirement/types.rs:358-370 [and] *)
Definition c_and (a b : vconstraint) : vconstraint :=
  match a, b with
  | CMultiple cs, o => CMultiple (cs ++ [o])
  | s, CMultiple cs => CMultiple (s :: cs)
  | s, o => CMultiple [s; o]
  end.
(** requirement/types.rs:373-387 [or] *)
Definition c_or (a b : vconstraint) : vconstraint :=
  match a, b with
  | CAlternative cs, o => CAlternative (cs ++ [o])
  | s, CAlternative cs => CAlternative (s :: cs)
  | s, o => CAlternative [s; o]
  end.

(** requirement/types.rs:135-140 [Requirement::is_satisfied_by] *)
Definition r_satisfied (r : requirement) (ver : version) : bool :=
  match rq_constraint r with None => true | Some c => c_satisfied c ver end.

(** requirement/types.rs:149-155 one platform condition, before negation *)
Definition platform_match (platform : text) (arch : option text) (c : platform_cond) : bool :=
  text_eqb (pc_platform c) platform &&
  match pc_arch c with
  | None => true
  | Some a => match arch with Some b => text_eqb b a | None => false end
  end.
(** requirement/types.rs:148-164 the loop; [None] when it falls through *)
Fixpoint platform_loop (platform : text) (arch : option text) (cs : list platform_cond) : option bool :=
  match cs with
  | [] => None
  | c :: cs' =>
      if platform_match platform arch c
      then Some (negb (pc_negate c))
      else platform_loop platform arch cs'
  end.
(** requirement/types.rs:143-167 [is_platform_satisfied] *)
Definition platform_satisfied (cs : list platform_cond) (platform : text) (arch : option text) : bool :=
  if is_nil cs then true
  else match platform_loop platform arch cs with
       | Some b => b
       | None => forallb pc_negate cs
       end.

(** the environment map of requirement/types.rs:170 as an association list, first binding wins *)
Fixpoint env_get (env : list (text * text)) (k : text) : option text :=
  match env with
  | [] => None
  | (x, v) :: env' => if text_eqb x k then Some v else env_get env' k
  end.
(** requirement/types.rs:176-181 *)
Definition env_match (env : list (text * text)) (c : env_cond) : bool :=
  match ec_expected c with
  | Some e => match env_get env (ec_var c) with Some v => text_eqb v e | None => false end
  | None => match env_get env (ec_var c) with Some _ => true | None => false end
  end.
(** requirement/types.rs:170-193 [is_env_satisfied]: early returns of the loop *)
Fixpoint env_satisfied (cs : list env_cond) (env : list (text * text)) : bool :=
  match cs with
  | [] => true
  | c :: cs' =>
      if ec_negate c
      then if env_match env c then false else env_satisfied cs' env
      else if negb (env_match env c) then false else env_satisfied cs' env
  end.

(** * Parsing *)

(** the class [[a-zA-Z0-9_\-\.]] of requirement/parser.rs:336-338 *)
Definition name_char (c : ascii) : bool :=
  is_alnum c || Ascii.eqb c "_" || Ascii.eqb c "-" || Ascii.eqb c ".".
(** longest prefix satisfying [f], and the rest *)
Fixpoint span (f : ascii -> bool) (s : text) : text * text :=
  match s with
  | c :: s' => if f c then let '(a, b) := span f s' in (c :: a, b) else ([], s)
  | [] => ([], [])
  end.
(** requirement/parser.rs:336: the character that [.] does not match *)
Definition newline : ascii := ascii_of_N 10.
(** [.] of the regex crate matches everything but a newline *)
Definition no_newline (s : text) : bool := forallb (fun c => negb (Ascii.eqb c newline)) s.

(** requirement/parser.rs:310, 336: the operators *)
Inductive op := OpEq | OpGe | OpLe | OpGt | OpLt | OpCompat.
(** the alternation [(==|>=|<=|>|<|~=)(.+)$] of requirement/parser.rs:310,336: first alternative that
    matches; a failing [(.+)$] cannot be repaired by a later alternative except [>] for [>=] and [<] for
    [<=], whose remainder would be a lone equals sign, see [split_op] *)
Definition split_op (s : text) : option (op * text) :=
  let try o p :=
    match strip_prefix p s with
    | Some r => if negb (is_nil r) && no_newline r then Some (o, r) else None
    | None => None
    end in
  match try OpEq (T "==") with
  | Some x => Some x
  | None => match try OpGe (T ">=") with
  | Some x => Some x
  | None => match try OpLe (T "<=") with
  | Some x => Some x
  | None => match try OpGt (T ">") with
  | Some x => Some x
  | None => match try OpLt (T "<") with
  | Some x => Some x
  | None => try OpCompat (T "~=")
  end end end end end.

(** requirement/parser.rs:336 regex [basic_version]: [(name, op, rest)]. No operator starts with a name
    character, so the greedy name group is the longest run of name characters. *)
Definition match_basic (s : text) : option (text * op * text) :=
  let '(n, r) := span name_char s in
  if is_nil n then None
  else match split_op r with Some (o, v) => Some (n, o, v) | None => None end.

(** requirement/parser.rs:338 regex [wildcard]: [(name, pattern)] *)
Definition match_wildcard (s : text) : option (text * text) :=
  let '(n, r) := span name_char s in
  if is_nil n then None
  else match strip_prefix (T "==") r with
       | Some p => if existsb (Ascii.eqb "*") (tl p) && no_newline p then Some (n, p) else None
       | None => None
       end.

(** requirement/parser.rs:337 regex [namespace]: [(namespace, rest)] *)
Definition match_namespace (s : text) : option (text * text) :=
  let '(n, r) := span name_char s in
  if is_nil n then None
  else match strip_prefix (T "::") r with
       | Some p => if negb (is_nil (fst (span name_char p))) && no_newline p then Some (n, p) else None
       | None => None
       end.

(** [find] of a two-character pattern: text before and after it *)
Fixpoint find_pair (x y : ascii) (s : text) : option (text * text) :=
  match s with
  | a :: ((b :: s'') as s') =>
      if Ascii.eqb a x && Ascii.eqb b y then Some ([], s'')
      else match find_pair x y s' with Some (p, q) => Some (a :: p, q) | None => None end
  | _ => None
  end.

(** requirement/parser.rs:103-112 *)
Definition quote : ascii := ascii_of_N 39.
(** a quoted value: text between the first two single quotes of [s], and what follows *)
Definition first_quoted (s : text) : option (text * text) :=
  match find_char quote s with
  | None => None
  | Some (_, r) => match find_char quote r with
                   | None => None
                   | Some (q, r') => Some (q, r')
                   end
  end.

(** requirement/parser.rs:100-133 [parse_platform_condition]. Lines 109-120 look for a quote after the
    last quote of the text, which never exists, so [arch] is always [None]. *)
Definition parse_platform_condition (c : text) : option platform_cond :=
  match first_quoted c with
  | Some (p, _) => Some (mkPlatform p None (contains_text (T "!=") c))
  | None => None
  end.

(** requirement/parser.rs:136-173 [parse_env_condition]; only called on text starting with [env.], so
    [var_part] is the text after that prefix *)
Definition parse_env_condition (c : text) : option env_cond :=
  let negate := contains_text (T "!=") c in
  let var_part := skipn 4 c in
  match (match find_pair "=" "=" var_part with
         | Some x => Some x
         | None => find_pair "!" "=" var_part
         end) with
  | Some (name, value) =>
      if text_eqb (trim value) (T "None") then Some (mkEnvCond name None negate)
      else match find_char quote value with
           | Some (_, r) => match find_char quote r with
                            | Some (q, _) => Some (mkEnvCond name (Some q) negate)
                            | None => None
                            end
           | None => Some (mkEnvCond name (Some (trim value)) negate)
           end
  | None => Some (mkEnvCond var_part None negate)
  end.

(** requirement/parser.rs:68-97 [parse_conditions]; every round removes a bracket, so [fuel] is the length *)
Fixpoint parse_conditions (fuel : nat) (s : text) (ps : list platform_cond) (es : list env_cond)
  : option (text * list platform_cond * list env_cond) :=
  match find_char "[" s with
  | None => Some (s, ps, es)
  | Some (before, r) =>
      match find_char "]" r with
      | None => None
      | Some (cond, after) =>
          match fuel with
          | O => None
          | S fuel' =>
              if starts_with (T "platform") cond then
                match parse_platform_condition cond with
                | Some p => parse_conditions fuel' (before ++ after) (ps ++ [p]) es
                | None => None
                end
              else if starts_with (T "env.") cond then
                match parse_env_condition cond with
                | Some e => parse_conditions fuel' (before ++ after) ps (es ++ [e])
                | None => None
                end
              else None
          end
      end
  end.

(** requirement/parser.rs:202-210, 318-326 *)
Definition op_constraint (o : op) (v : version) : vconstraint :=
  match o with
  | OpEq => CExact v | OpGe => CGe v | OpLe => CLe v
  | OpGt => CGt v | OpLt => CLt v | OpCompat => CCompatible v
  end.

(** requirement/parser.rs:308-330 [parse_single_constraint] *)
Definition parse_req_single (s0 : text) : option vconstraint :=
  match split_op (trim s0) with
  | Some (o, vs) => match parse_version vs with Some v => Some (op_constraint o v) | None => None end
  | None => None
  end.
(** requirement/parser.rs:244-259 [parse_version_constraints] *)
Definition parse_req_constraints (s : text) : option vconstraint :=
  match split_on "," s with
  | [p] => parse_req_single p
  | ps => match map_opt (fun p => parse_req_single (trim p)) ps with
          | Some cs => Some (CMultiple cs)
          | None => None
          end
  end.

(** [str::trim_end_matches('+')] *)
Definition trim_plus (s : text) : text :=
  rev ((fix go s := match s with c :: s' => if Ascii.eqb c "+" then go s' else s | [] => [] end) (rev s)).

(** requirement/parser.rs:274-304, the part of [parse_rez_version_spec] after the [..] form *)
Definition parse_rez_tail (spec : text) : option vconstraint :=
  let '(base, upper) := match find_char "<" spec with
                        | Some (b, r) => (trim_plus b, Some r)
                        | None => (trim_plus spec, None)
                        end in
  match parse_version base with
  | None => None
  | Some lo =>
      match upper with
      | Some r =>
          let '(inclusive, vs) := match strip_prefix (T "=") r with
                                  | Some r' => (true, trim r')
                                  | None => (false, trim r)
                                  end in
          match parse_version vs with
          | None => None
          | Some hi => Some (CMultiple [CGe lo; if inclusive then CLe hi else CLt hi])
          end
      | None => if ends_with (T "+") spec then Some (CGe lo) else Some (CPrefix lo)
      end
  end.
(** requirement/parser.rs:262-305 [parse_rez_version_spec] *)
Definition parse_rez_spec (spec : text) : option vconstraint :=
  match (match find_dotdot spec with
         | Some (a, b) => match parse_version a, parse_version b with
                          | Some lo, Some hi => Some (CMultiple [CGe lo; CLt hi])
                          | _, _ => None
                          end
         | None => None
         end) with
  | Some c => Some c
  | None => parse_rez_tail spec
  end.

(** [str::rfind] of a character: text before and after its last occurrence *)
Definition rfind_char (d : ascii) (s : text) : option (text * text) :=
  match find_char d (rev s) with
  | Some (a, b) => Some (rev b, rev a)
  | None => None
  end.

(** requirement/parser.rs:216-226: [package-1.0+] *)
Definition parse_plus (s : text) : option (text * vconstraint) :=
  if ends_with (T "+") s then
    match rfind_char "-" (removelast s) with
    | Some (n, vs) => match parse_version vs with Some v => Some (n, CGe v) | None => None end
    | None => None
    end
  else None.

(** requirement/parser.rs:229-238: name, hyphen, native version spec *)
Definition parse_dash (s : text) : option (text * vconstraint) :=
  match find_char "-" s with
  | Some (n, spec) => match parse_rez_spec spec with Some c => Some (n, c) | None => None end
  | None => None
  end.

(** requirement/parser.rs:176-241 [parse_name_and_version] *)
Definition parse_name_and_version (s : text) : option (text * option vconstraint) :=
  match match_wildcard s with
  | Some (n, p) => Some (n, Some (CWildcard p))
  | None =>
      match match_basic s with
      | Some (n, o, vs) =>
          if existsb (Ascii.eqb ",") s then
            match parse_req_constraints (skipn (length n) s) with
            | Some c => Some (n, Some c)
            | None => None
            end
          else
            match parse_version vs with
            | Some v => Some (n, Some (op_constraint o v))
            | None => None
            end
      | None =>
          match parse_plus s with
          | Some (n, c) => Some (n, Some c)
          | None =>
              match parse_dash s with
              | Some (n, c) => Some (n, Some c)
              | None => Some (s, None)
              end
          end
      end
  end.

(** requirement/parser.rs:29-65 [RequirementParser::parse] *)
Definition parse_requirement (s0 : text) : option requirement :=
  let s := trim s0 in
  let '(s, conflict) := match strip_prefix (T "!") s with Some r => (r, true) | None => (s, false) end in
  let '(s, weak) :=
    if conflict then (s, false)
    else match strip_prefix (T "~") s with Some r => (r, true) | None => (s, false) end in
  let '(s, ns) := match match_namespace s with Some (n, r) => (r, Some n) | None => (s, None) end in
  match parse_conditions (length s) s [] [] with
  | None => None
  | Some (rest, ps, es) =>
      match parse_name_and_version rest with
      | None => None
      | Some (n, c) => Some (mkReq n c weak conflict ps es ns)
      end
  end.

(** * Display *)

(** requirement/display.rs:56-87 *)
Fixpoint show_constraint (c : vconstraint) : text :=
  match c with
  | CExact v => T "==" ++ v_str v
  | CGt v => T ">" ++ v_str v
  | CGe v => T ">=" ++ v_str v
  | CLt v => T "<" ++ v_str v
  | CLe v => T "<=" ++ v_str v
  | CCompatible v => T "~=" ++ v_str v
  | CRange lo hi => T ">=" ++ v_str lo ++ T ",<" ++ v_str hi
  | CMultiple cs => join (T ",") (map show_constraint cs)
  | CAlternative cs => T "(" ++ join (T " || ") (map show_constraint cs) ++ T ")"
  | CExclude vs => join (T ",") (map (fun v => T "!=" ++ v_str v) vs)
  | CWildcard p => T "==" ++ p
  | CPrefix v => T "-" ++ v_str v
  | CAny => []
  end.
(** requirement/display.rs:31-44 *)
Definition show_platform (c : platform_cond) : text :=
  T "platform" ++ (if pc_negate c then T "!=" else T "==") ++ [quote] ++ pc_platform c ++ [quote] ++
  match pc_arch c with
  | Some a => T " and arch==" ++ [quote] ++ a ++ [quote]
  | None => []
  end.
(** requirement/display.rs:46-54 *)
Definition show_env (c : env_cond) : text :=
  match ec_expected c with
  | Some e => T "env." ++ ec_var c ++ (if ec_negate c then T "!=" else T "==") ++ [quote] ++ e ++ [quote]
  | None => T "env." ++ ec_var c
  end.
(** requirement/display.rs:46-54, with the above *)
Definition bracket (s : text) : text := T "[" ++ s ++ T "]".
(** requirement/display.rs:7-29 *)
Definition show_requirement (r : requirement) : text :=
  (if rq_conflict r then T "!" else if rq_weak r then T "~" else []) ++
  match rq_namespace r with Some n => n ++ T "::" | None => [] end ++
  rq_name r ++
  match rq_constraint r with Some c => show_constraint c | None => [] end ++
  concat (map (fun c => bracket (show_platform c)) (rq_platform r)) ++
  concat (map (fun c => bracket (show_env c)) (rq_env r)).

(** * Package requirements (package/requirement.rs) *)

(** package/requirement.rs:11-20 [PackageRequirement] *)
Record package_req := mkPkgReq { pr_name : text; pr_spec : option text; pr_weak : bool; pr_conflict : bool }.

(** package/requirement.rs:22-37 [Display] *)
Definition show_package_req (p : package_req) : text :=
  (if pr_conflict p then T "!" else if pr_weak p then T "~" else []) ++
  pr_name p ++ match pr_spec p with Some v => T "-" ++ v | None => [] end.

(** package/requirement.rs:69-97 [PackageRequirement::parse]. Line 87 slices the untrimmed text by the
    length of the parsed name; the parsed name is never longer than the text. *)
Definition parse_package_req (s0 : text) : option package_req :=
  let '(s, conflict) := match strip_prefix (T "!") s0 with Some r => (r, true) | None => (s0, false) end in
  let '(s, weak) :=
    if starts_with (T "~") s && negb (starts_with (T "~=") s)
    then match strip_prefix (T "~") s with Some r => (r, true) | None => (s, false) end
    else (s, false) in
  match parse_requirement s with
  | None => None
  | Some r =>
      let remainder := skipn (length (rq_name r)) s in
      let spec := match strip_prefix (T "-") remainder with Some x => x | None => remainder end in
      Some (mkPkgReq (rq_name r) (if is_nil spec then None else Some spec) weak conflict)
  end.

(** package/requirement.rs:136-155: leading operator of a spec *)
Inductive spec_op := SGe | SLe | SNe | SCompat | SEq | SGt | SLt.
(** package/requirement.rs:136-155, with the above *)
Definition spec_operator (s : text) : option (spec_op * text) :=
  let try o p := match strip_prefix p s with Some r => Some (o, r) | None => None end in
  match try SGe (T ">=") with
  | Some x => Some x
  | None => match try SLe (T "<=") with
  | Some x => Some x
  | None => match try SNe (T "!=") with
  | Some x => Some x
  | None => match try SCompat (T "~=") with
  | Some x => Some x
  | None => match try SEq (T "==") with
  | Some x => Some x
  | None => match try SGt (T ">") with
  | Some x => Some x
  | None => try SLt (T "<")
  end end end end end end.

(** package/requirement.rs:160-168 *)
Definition spec_constraint (o : spec_op) (v : version) : vconstraint :=
  match o with
  | SGe => CGe v | SLe => CLe v | SGt => CGt v | SLt => CLt v
  | SNe => CExclude [v] | SCompat => CCompatible v | SEq => CExact v
  end.

(** package/requirement.rs:157-172, the part after the operator is known *)
Definition check_op (ver : version) (o : spec_op) (vs0 : text) : bool :=
  let vs := trim vs0 in
  match parse_version vs with
  | Some v => c_satisfied (spec_constraint o v) ver
  | None => text_eqb (v_str ver) vs
  end.
(** package/requirement.rs:133-173 [check_single_constraint] *)
Definition check_single (ver : version) (spec : text) : bool :=
  match spec_operator spec with
  | Some (o, vs) => check_op ver o vs
  | None =>
      match parse_range spec with
      | Some r => contains r ver
      | None => check_op ver SEq spec
      end
  end.

(** package/requirement.rs:115-130 [PackageRequirement::satisfied_by] *)
Definition pkg_satisfied (p : package_req) (ver : version) : bool :=
  match pr_spec p with
  | None => true
  | Some spec0 =>
      let spec := trim spec0 in
      if is_nil spec then true
      else if existsb (Ascii.eqb ",") spec
      then forallb (fun part => check_single ver (trim part)) (split_on "," spec)
      else check_single ver spec
  end.

(** The conversion every front end applies before calling the solver, e.g.
    crates/rez-next-solver/src/solver.rs:212-221 and src/cli/commands/env.rs:258-267 *)
Definition to_solver_requirement (p : package_req) : requirement :=
  match parse_requirement (show_package_req p) with
  | Some r => r
  | None => req_new (pr_name p)
  end.
