(** Model of crates/rez-next-version/src/range/{types,parser,satisfiability,mod}.rs. *)
From Verif Require Import Base Version_model.

(** types.rs:7-26 [enum Bound] *)
Inductive bound :=
| BGe (v : version) | BGt (v : version) | BLe (v : version) | BLt (v : version)
| BEq (v : version) | BNe (v : version) | BCompat (v : version) | BAny | BNone.

(** types.rs:30-32 [BoundSet]: a conjunction *)
Definition bound_set := list bound.

(** Rust's derived comparison operators on versions (PartialOrd, version.rs:490-494) *)
Definition v_lt (a b : version) : bool := is_lt (vcmp a b).
(** version.rs:490-494, with the above *)
Definition v_le (a b : version) : bool := is_le (vcmp a b).
(** version.rs:490-494, with the above *)
Definition v_gt (a b : version) : bool := is_gt (vcmp a b).
(** version.rs:490-494, with the above *)
Definition v_ge (a b : version) : bool := is_ge (vcmp a b).

(** [x + 1] on u64 in a release build (a debug build panics at u64::MAX instead) *)
Definition u64_succ (x : N) : N := ((x + 1) mod (U64_MAX + 1))%N.

(** types.rs:74-93 text of the exclusive upper bound of [~=v]; [None] when the code returns
    early (fewer than two parts, or a part that is not a u64) *)
Definition compat_upper_text (v : version) : option text :=
  match split_on "." (v_str v) with
  | [] | [_] => None
  | [p0; _] => match parse_u64 p0 with
               | Some x => Some (show_N (u64_succ x) ++ T ".0")
               | None => None end
  | p0 :: p1 :: _ => match parse_u64 p1 with
               | Some y => Some (p0 ++ T "." ++ show_N (u64_succ y) ++ T ".0")
               | None => None end
  end.

(** types.rs:57-102 [bound_matches] *)
Definition bound_matches (b : bound) (ver : version) : bool :=
  match b with
  | BAny => true
  | BNone => false
  | BGe v => v_ge ver v
  | BGt v => v_gt ver v
  | BLe v => v_le ver v
  | BLt v => v_lt ver v
  | BEq v => veq ver v
  | BNe v => negb (veq ver v)
  | BCompat v =>
      if v_lt ver v then false
      else match compat_upper_text v with
           | None => true   (* both early returns are true here because ver >= v *)
           | Some u => match parse_version u with
                       | Some upper => v_lt ver upper
                       | None => v_ge ver v
                       end
           end
  end.

(** types.rs:47-54 [BoundSet::contains] *)
Definition bs_contains (bs : bound_set) (ver : version) : bool :=
  forallb (fun b => bound_matches b ver) bs.

(** ** range/parser.rs *)

(** parser.rs:175-233 [parse_single_constraint] *)
Definition strip_prefix (p s : text) : option text :=
  if starts_with p s then Some (skipn (length p) s) else None.
(** parser.rs:175-233, with the above *)
Definition parse_bound_with (mk : version -> bound) (rest : text) : option bound :=
  match parse_version (trim rest) with Some v => Some (mk v) | None => None end.
(** parser.rs:175-233, with the above *)
Definition parse_single_constraint (s0 : text) : option bound :=
  let s := trim s0 in
  if is_nil s || text_eqb s (T "*") then Some BAny
  else match strip_prefix (T ">=") s with Some r => parse_bound_with BGe r | None =>
       match strip_prefix (T "<=") s with Some r => parse_bound_with BLe r | None =>
       match strip_prefix (T "==") s with Some r => parse_bound_with BEq r | None =>
       match strip_prefix (T "!=") s with Some r => parse_bound_with BNe r | None =>
       match strip_prefix (T "~=") s with Some r => parse_bound_with BCompat r | None =>
       match strip_prefix (T ">") s with Some r => parse_bound_with BGt r | None =>
       match strip_prefix (T "<") s with Some r => parse_bound_with BLt r | None =>
         match parse_version s with Some v => Some (BEq v) | None => None end
       end end end end end end end.

(** parser.rs:153 operator start characters *)
Definition is_op_char (c : ascii) : bool :=
  Ascii.eqb c ">" || Ascii.eqb c "<" || Ascii.eqb c "=" || Ascii.eqb c "!" || Ascii.eqb c "~".

(** parser.rs:147-150: first character after a run of spaces *)
Fixpoint next_nonspace (s : text) : option ascii :=
  match s with
  | [] => None
  | c :: s' => if Ascii.eqb c " " then next_nonspace s' else Some c
  end.

(** push [current.trim()] unless empty (parser.rs:114-116, 122-124, 154-156, 168-170) *)
Definition push_trim (cur_rev : text) (rest : list text) : list text :=
  let t := trim (rev cur_rev) in if is_nil t then rest else t :: rest.

(** parser.rs:137-172 [split_on_operator_boundaries].  The code jumps over a run of spaces
    in one step ([i = j]); here each space of the run is dropped one by one, with [current]
    already empty, which is the same. *)
Fixpoint split_ops (cur : text) (s : text) : list text :=
  match s with
  | [] => push_trim cur []
  | c :: s' =>
      if Ascii.eqb c " " then
        match next_nonspace s' with
        | Some d => if is_op_char d then push_trim cur (split_ops [] s')
                    else split_ops (c :: cur) s'
        | None => split_ops (c :: cur) s'
        end
      else split_ops (c :: cur) s'
  end.

(** parser.rs:112-124: the comma loop *)
Fixpoint split_commas (cur : text) (s : text) : list text :=
  match s with
  | [] => push_trim cur []
  | c :: s' => if Ascii.eqb c "," then push_trim cur (split_commas [] s')
               else split_commas (c :: cur) s'
  end.

(** parser.rs:108-134 [split_constraint_parts] *)
Definition split_constraint_parts (s : text) : list text :=
  flat_map (split_ops []) (split_commas [] s).

(** [str::find(char)] as the text before and after the first occurrence *)
Fixpoint find_char (d : ascii) (s : text) : option (text * text) :=
  match s with
  | [] => None
  | c :: s' => if Ascii.eqb c d then Some ([], s')
               else match find_char d s' with Some (a, b) => Some (c :: a, b) | None => None end
  end.

(** parser.rs:24-30, 61-66: does the text start with an operator character? *)
Definition starts_op (s : text) : bool :=
  starts_with (T ">") s || starts_with (T "<") s || starts_with (T "=") s ||
  starts_with (T "!") s || starts_with (T "~") s.

(** parser.rs:61-84 rewriting of the rez "+" shorthand *)
Definition expand_plus (s : text) : text :=
  if starts_op s then s
  else match find_char "+" s with
       | None => s
       | Some (prefix, suffix) =>
           if is_nil suffix then T ">=" ++ prefix
           else T ">=" ++ prefix ++ T "," ++ suffix
       end.

(** parse a list of parts, skipping blank ones, failing on the first error
    (parser.rs:91-98) *)
Fixpoint parse_parts (ps : list text) : option (list bound) :=
  match ps with
  | [] => Some []
  | p :: ps' =>
      if is_nil (trim p) then parse_parts ps'
      else match parse_single_constraint (trim p), parse_parts ps' with
           | Some b, Some bs => Some (b :: bs)
           | _, _ => None
           end
  end.

(** parser.rs:53-105 [parse_conjunction] *)
Definition parse_conjunction (s : text) : option bound_set :=
  if is_nil s || text_eqb s (T "*") then Some [BAny]
  else match parse_parts (split_constraint_parts (expand_plus s)) with
       | None => None
       | Some [] => Some [BAny]
       | Some bs => Some bs
       end.

(** parser.rs:53-105, with the above *)
Fixpoint map_opt {A B} (f : A -> option B) (l : list A) : option (list B) :=
  match l with
  | [] => Some []
  | x :: l' => match f x, map_opt f l' with Some y, Some ys => Some (y :: ys) | _, _ => None end
  end.

(** parser.rs:39-48 split on "|" *)
Definition parse_alternatives (s : text) : option (list bound_set) :=
  map_opt (fun p => parse_conjunction (trim p)) (split_on "|" s).

(** [str::find("..")] as the text before and after *)
Fixpoint find_dotdot (s : text) : option (text * text) :=
  match s with
  | [] => None
  | c :: s' =>
      if starts_with (T "..") s then Some ([], skipn 2 s)
      else match find_dotdot s' with Some (a, b) => Some (c :: a, b) | None => None end
  end.

(** parser.rs:8-49 [parse_range_str].  The recursive call (34) is on a text starting with
    ">=", which skips both special cases and the ".." branch, so it is
    [parse_alternatives]. *)
Definition parse_range_str (s : text) : option (list bound_set) :=
  if is_nil s || text_eqb s (T "*") then Some [[BAny]]
  else if text_eqb s (T "empty") || text_eqb s (T "!*") then Some [[BNone]]
  else
    match (if starts_with (T ".") s then None else find_dotdot s) with
    | Some (l, r) =>
        if negb (is_nil l) && negb (is_nil r) && negb (starts_op l)
        then parse_alternatives (T ">=" ++ trim l ++ T ",<" ++ trim r)
        else parse_alternatives s
    | None => parse_alternatives s
    end.

(** ** range/mod.rs *)

(** mod.rs:22-34 [struct VersionRange] *)
Inductive range := mkRange (str : text) (sets : list bound_set) (is_parsed : bool) (subs : list range).
(** mod.rs:22-34, with the above *)
Definition r_str (r : range) : text := let '(mkRange s _ _ _) := r in s.
(** mod.rs:22-34, with the above *)
Definition r_sets (r : range) : list bound_set := let '(mkRange _ b _ _) := r in b.
(** mod.rs:22-34, with the above *)
Definition r_parsed (r : range) : bool := let '(mkRange _ _ p _) := r in p.
(** mod.rs:22-34, with the above *)
Definition r_subs (r : range) : list range := let '(mkRange _ _ _ u) := r in u.

(** mod.rs:44-61 [any], [none] *)
Definition range_any : range := mkRange [] [[BAny]] true [].
(** mod.rs:44-61, with the above *)
Definition range_none : range := mkRange (T "!*") [[BNone]] true [].

(** mod.rs:74-83 [parse] *)
Definition parse_range (s : text) : option range :=
  match parse_range_str (trim s) with
  | Some b => Some (mkRange s b true [])
  | None => None
  end.

(** mod.rs:86-102 [contains] *)
Fixpoint contains (r : range) (ver : version) : bool :=
  match r with
  | mkRange _ sets p subs =>
      if negb p || is_nil sets then true
      else if existsb (fun bs => bs_contains bs ver) sets
           then negb (existsb (fun s => contains s ver) subs)
           else false
  end.

(** mod.rs:207-216 [is_any] *)
Definition is_bany (b : bound) : bool := match b with BAny => true | _ => false end.
(** mod.rs:207-216, with the above *)
Definition is_any (r : range) : bool :=
  let s := trim (r_str r) in
  if is_nil s || text_eqb s (T "*") then true
  else forallb (fun bs => is_nil bs || forallb is_bany bs) (r_sets r).

(** mod.rs:277-289 [is_empty] *)
Definition is_bnone (b : bound) : bool := match b with BNone => true | _ => false end.
(** mod.rs:277-289, with the above *)
Definition range_is_empty (r : range) : bool :=
  let s := trim (r_str r) in
  if text_eqb s (T "empty") || text_eqb s (T "!*") then true
  else if r_parsed r && negb (is_nil (r_sets r)) then forallb (existsb is_bnone) (r_sets r)
  else false.

(** satisfiability.rs:20-51 the running lower/upper bound (version, inclusive) *)
Definition edge := option (version * bool).
(** satisfiability.rs:20-51, with the above *)
Definition lower_ge (lo : edge) (v : version) : edge :=
  match lo with
  | None => Some (v, true)
  | Some (lv, linc) => if v_gt v lv || (veq v lv && negb linc) then Some (v, true) else lo
  end.
(** satisfiability.rs:20-51, with the above *)
Definition lower_gt (lo : edge) (v : version) : edge :=
  match lo with
  | None => Some (v, false)
  | Some (lv, _) => if v_ge v lv then Some (v, false) else lo
  end.
(** satisfiability.rs:20-51, with the above *)
Definition upper_le (up : edge) (v : version) : edge :=
  match up with
  | None => Some (v, true)
  | Some (uv, uinc) => if v_lt v uv || (veq v uv && negb uinc) then Some (v, true) else up
  end.
(** satisfiability.rs:20-51, with the above *)
Definition upper_lt (up : edge) (v : version) : edge :=
  match up with
  | None => Some (v, false)
  | Some (uv, _) => if v_le v uv then Some (v, false) else up
  end.

(** satisfiability.rs:79-92 and 178-192 final check of lower against upper *)
Definition edges_ok (lo up : edge) : bool :=
  match lo, up with
  | Some (lv, linc), Some (uv, uinc) =>
      match vcmp lv uv with
      | Gt => false
      | Eq => linc && uinc
      | Lt => true
      end
  | _, _ => true
  end.

(** satisfiability.rs:52-75 equality used as lower and upper bound; [None] is [return false] *)
Definition lower_eq (lo : edge) (v : version) : option edge :=
  match lo with
  | None => Some (Some (v, true))
  | Some (lv, linc) =>
      if v_gt v lv || (veq v lv && negb linc) then Some (Some (v, true))
      else if v_lt v lv then None else Some lo
  end.
(** satisfiability.rs:52-75, with the above *)
Definition upper_eq (up : edge) (v : version) : option edge :=
  match up with
  | None => Some (Some (v, true))
  | Some (uv, uinc) =>
      if v_lt v uv || (veq v uv && negb uinc) then Some (Some (v, true))
      else if v_gt v uv then None else Some up
  end.

(** satisfiability.rs:16-77 the loop; [None] is [return false] *)
Fixpoint sat_loop (bs : bound_set) (lo up : edge) : option (edge * edge) :=
  match bs with
  | [] => Some (lo, up)
  | b :: bs' =>
      match b with
      | BAny | BNe _ | BCompat _ => sat_loop bs' lo up
      | BNone => None
      | BGe v => sat_loop bs' (lower_ge lo v) up
      | BGt v => sat_loop bs' (lower_gt lo v) up
      | BLe v => sat_loop bs' lo (upper_le up v)
      | BLt v => sat_loop bs' lo (upper_lt up v)
      | BEq v =>
          match lower_eq lo v with
          | None => None
          | Some lo' => match upper_eq up v with
                        | None => None
                        | Some up' => sat_loop bs' lo' up'
                        end
          end
      end
  end.

(** satisfiability.rs:7-93 [is_bound_set_satisfiable] *)
Definition satisfiable (bs : bound_set) : bool :=
  if existsb is_bnone bs then false
  else match sat_loop bs None None with
       | None => false
       | Some (lo, up) => edges_ok lo up
       end.

(** mod.rs:129-163 [intersect] *)
Definition merge_sets (a b : list bound_set) : list bound_set :=
  filter satisfiable (flat_map (fun x => map (fun y => x ++ y) b) a).
(** mod.rs:129-163, with the above *)
Definition intersect (a b : range) : option range :=
  if is_any a then Some b
  else if is_any b then Some a
  else match merge_sets (r_sets a) (r_sets b) with
       | [] => None
       | sets => Some (mkRange (T "(" ++ r_str a ++ T ")&(" ++ r_str b ++ T ")") sets true
                               (r_subs a ++ r_subs b))
       end.

(** mod.rs:166-176 [union] *)
Definition union (a b : range) : range :=
  mkRange (r_str a ++ T "|" ++ r_str b) (r_sets a ++ r_sets b) true [].

(** mod.rs:245-274 [collect_probe_versions_with_other] *)
Definition opt_list {A} (o : option A) : list A := match o with Some x => [x] | None => [] end.
(** mod.rs:245-274, with the above *)
Definition bound_probes (b : bound) : list version :=
  match b with
  | BGe v | BGt v | BLe v | BLt v | BEq v | BNe v | BCompat v =>
      v :: opt_list (parse_version (v_str v ++ T ".999999"))
  | BAny | BNone => []
  end.
(** mod.rs:245-274, with the above *)
Definition probes (a b : range) : list version :=
  flat_map bound_probes (concat (r_sets a)) ++ flat_map bound_probes (concat (r_sets b)) ++
  opt_list (parse_version (T "0.0.1")) ++ opt_list (parse_version (T "999.999.999")).

(** mod.rs:180-204 [subtract] *)
Definition subtract (a b : range) : option range :=
  if is_any b then None
  else if range_is_empty b then Some a
  else if range_is_empty a then None
  else
    let r := mkRange (T "(" ++ r_str a ++ T ")-(" ++ r_str b ++ T ")") (r_sets a) true
                     (r_subs a ++ [b]) in
    if existsb (contains r) (probes a b) then Some r else None.

(** mod.rs:220-237 [is_subset_of], 240-242 [is_superset_of] *)
Definition is_subset_of (a b : range) : bool :=
  if is_any b then true
  else if is_any a then is_any b
  else if range_is_empty a then true
  else negb (existsb (fun v => contains a v && negb (contains b v)) (probes a b)).

(** satisfiability.rs:96-193 [bound_sets_intersect] *)
Definition eq_versions (bs : bound_set) : list version :=
  flat_map (fun b => match b with BEq v => [v] | _ => [] end) bs.
(** satisfiability.rs:96-193, with the above *)
Definition eq_conflict (ev : version) (b : bound) : bool :=
  match b with
  | BGe w => v_lt ev w
  | BGt w => v_le ev w
  | BLe w => v_gt ev w
  | BLt w => v_ge ev w
  | _ => false
  end.
(** satisfiability.rs:96-193, with the above *)
Fixpoint edge_loop (bs : bound_set) (lo up : edge) : edge * edge :=
  match bs with
  | [] => (lo, up)
  | b :: bs' =>
      match b with
      | BGe v => edge_loop bs' (lower_ge lo v) up
      | BGt v => edge_loop bs' (lower_gt lo v) up
      | BLe v => edge_loop bs' lo (upper_le up v)
      | BLt v => edge_loop bs' lo (upper_lt up v)
      | _ => edge_loop bs' lo up
      end
  end.
(** satisfiability.rs:96-193, with the above *)
Definition sets_intersect (a b : bound_set) : bool :=
  if forallb is_bany a || forallb is_bany b then true
  else
    let c := a ++ b in
    let evs := eq_versions c in
    if match evs with
       | first :: _ => (1 <? length evs) && existsb (fun v => negb (veq v first)) evs
       | [] => false
       end then false
    else if existsb (fun ev => existsb (eq_conflict ev) c) evs then false
    else let '(lo, up) := edge_loop c None None in edges_ok lo up.

(** mod.rs:110-126 [intersects] *)
Definition intersects (a b : range) : bool :=
  if is_any a || is_any b then true
  else existsb (fun x => existsb (fun y => sets_intersect x y) (r_sets b)) (r_sets a).

(** serde: only [range_str] is written; the skipped fields come back as their defaults
    (mod.rs:21-33: [#[serde(skip)]] gives [vec![]], [false], [vec![]]) *)
Definition range_serialize (r : range) : text := r_str r.
(** mod.rs:21-33, with the above *)
Definition range_deserialize (s : text) : range := mkRange s [] false [].
