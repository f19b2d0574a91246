(** Model of the package filters.
    Sources: crates/rez-next-package-filter/src/rule.rs (PR), crates/rez-next-package-filter/src/filter.rs (PF),
    crates/rez-next-package/src/filter.rs (FL).
    The regex and glob libraries are parameters: [re] compiles a regular expression (to [None] if it is rejected) to the test it
    performs, [gl] compiles a glob pattern.  Texts are bytes.  Timestamps of rules are whole seconds. *)
From Verif Require Import Base Version_model Range_model Requirement_model.

(** crates/rez-next-package/src/package/types.rs [struct Package]: the fields the filters read *)
Record fpkg := mkFpkg { fp_name : text; fp_version : option version; fp_desc : option text; fp_time : option Z }.

(** ** Rules of the package-filter crate *)
(** PR:86-93, 242-247 [GlobField], [RegexField] (a regex has no version field) *)
Inductive field := FName | FVersion | FDescription.
(** PR:75-82, 229-238, 352-357, 452-459: the rules; families of glob, regex and timestamp rules are never read *)
Inductive prule :=
| PGlob (pat : text) (f : field)
| PRegex (pat : text) (f : field)
| PRange (r : range) (family : option text)
| PTime (ts : N) (before : bool).
(** PR:200-204, 326-329 *)
Definition field_text (f : field) : text :=
  match f with FName => T "name" | FVersion => T "version" | FDescription => T "description" end.
(** PR:150: the characters a glob escapes *)
Definition glob_special (c : ascii) : bool :=
  existsb (Ascii.eqb c) (T ".()[]{}|^$+").
(** PR:141-159 [matches_glob]: the regular expression of a glob *)
Definition glob_regex (pat : text) : text :=
  T "^" ++ flat_map (fun c => if Ascii.eqb c "*" then T ".*" else if Ascii.eqb c "?" then T "."
                              else if glob_special c then T "\" ++ [c] else [c]) pat ++ T "$".
(** PR:160-164 *)
Definition matches_glob (re : text -> option (text -> bool)) (pat s : text) : bool :=
  match re (glob_regex pat) with Some m => m s | None => false end.
(** PR:169-181, 295-306, 403-418, 518-537 [apply] *)
Definition papply (re : text -> option (text -> bool)) (r : prule) (p : fpkg) : bool :=
  match r with
  | PGlob pat FName => matches_glob re pat (fp_name p)
  | PGlob pat FVersion => false
  | PGlob pat FDescription => matches_glob re pat (match fp_desc p with Some d => d | None => [] end)
  | PRegex pat f => match re pat with
                    | Some m => m (match f with FDescription => match fp_desc p with Some d => d | None => [] end | _ => fp_name p end)
                    | None => false end
  | PRange r family =>
      match family with Some f => text_eqb (fp_name p) f | None => true end &&
      match fp_version p with Some v => contains r v | None => false end
  | PTime ts before =>
      match fp_time p with
      | Some t => if (t <? 0)%Z then false else if before then (t <? Z.of_N ts)%Z else (Z.of_N ts <? t)%Z
      | None => false
      end
  end.
(** PF:36-41 [RulePod] *)
Record pod := mkPod { pd_type : text; pd_pattern : text }.
(** PR:196-209, 321-333, 433-441, 552-560 [to_pod] *)
Definition rule_pod (r : prule) : pod :=
  match r with
  | PGlob pat f => mkPod (T "glob") (field_text f ++ T ":" ++ pat)
  | PRegex pat f => mkPod (T "regex") (field_text f ++ T ":" ++ pat)
  | PRange r family => mkPod (T "range") (match family with Some f => f ++ T "-" | None => [] end ++ r_str r)
  | PTime ts before => mkPod (if before then T "before" else T "after") (show_N ts)
  end.
(** PF:137, 148, 206: the text of a rule *)
Definition pod_text (d : pod) : text := pd_type d ++ T "(" ++ pd_pattern d ++ T ")".
(** [str::strip_suffix] for a character *)
Definition strip_last (c : ascii) (s : text) : option text :=
  match rev s with d :: r => if Ascii.eqb d c then Some (rev r) else None | [] => None end.
(** PR:115-118, 267-272, 378-384: the text inside the brackets *)
Definition inside (head s : text) : option text :=
  match strip_prefix head s with Some x => strip_last ")" x | None => None end.
(** PR:120-136, 274-288: the optional field *)
Definition split_field (s : text) : option (text * text) := find_char ":" s.
(** PR:97-108 [GlobRule::new] *)
Definition new_glob (pat : text) (f : field) : option prule := if is_nil pat then None else Some (PGlob pat f).
(** PR:251-261 [RegexRule::new] *)
Definition new_regex (re : text -> option (text -> bool)) (pat : text) (f : field) : option prule :=
  match re pat with Some _ => Some (PRegex pat f) | None => None end.
(** PR:361-369 [RangeRule::new] *)
Definition new_range (s : text) (family : option text) : option prule :=
  match parse_range s with Some r => Some (PRange r family) | None => None end.
(** PR:113-138 [GlobRule::parse_rule] *)
Definition parse_glob (s : text) : option prule :=
  match inside (T "glob(") s with
  | None => None
  | Some x => match split_field x with
              | Some (f, pat) => if text_eqb f (T "name") then new_glob pat FName
                                 else if text_eqb f (T "version") then new_glob pat FVersion
                                 else if text_eqb f (T "description") then new_glob pat FDescription else None
              | None => new_glob x FName
              end
  end.
(** PR:266-291 [RegexRule::parse_rule] *)
Definition parse_regex (re : text -> option (text -> bool)) (s : text) : option prule :=
  match inside (T "regex(") s with
  | None => None
  | Some x => match split_field x with
              | Some (f, pat) => if text_eqb f (T "name") then new_regex re pat FName
                                 else if text_eqb f (T "description") then new_regex re pat FDescription else None
              | None => new_regex re x FName
              end
  end.
(** PR:377-399 [RangeRule::parse_rule] *)
Definition parse_family_range (x : text) : option prule :=
  match match find_char "-" x with
        | Some (family, s) => match parse_range s with Some r => Some (PRange r (Some family)) | None => None end
        | None => None end with
  | Some r => Some r
  | None => new_range x None
  end.
(** PR:377-399, with the above *)
Definition parse_prange (s : text) : option prule :=
  match (match strip_prefix (T "range(") s with Some x => strip_last ")" x | None => Some s end) with
  | None => None
  | Some x => parse_family_range x
  end.
(** PR:475-514 [TimestampRule::parse_rule]; the first test that applies decides *)
Definition parse_ptime (s : text) : option prule :=
  match (match strip_prefix (T "before(") s with
         | Some x => match strip_last ")" x with Some y => Some (true, y) | None => None end
         | None => match inside (T "after(") s with Some y => Some (false, y) | None => None end end) with
  | None => None
  | Some (before, x) => match parse_i64 x with
                        | Some t => if (t <? 0)%Z then None else Some (PTime (Z.to_N t) before)
                        | None => None end
  end.
(** PR:585-611 [parse_rule] *)
Definition parse_prule (re : text -> option (text -> bool)) (s : text) : option prule :=
  if starts_with (T "glob(") s then parse_glob s
  else if starts_with (T "regex(") s then parse_regex re s
  else if starts_with (T "range(") s then parse_prange s
  else if starts_with (T "before(") s then parse_ptime s
  else if starts_with (T "after(") s then parse_ptime s
  else if contains_text (T "*") s || contains_text (T "?") s then new_glob s FName
  else parse_prange s.

(** PF:19-32 [PackageFilter]; the digest is never stored *)
Record pfilter := mkPfilter { pf_ex : list pod; pf_in : list pod }.
(** PF:19-32, with the above *)
Definition no_pfilter : pfilter := mkPfilter [] [].
(** PF:204-208 [pod_to_rule], applied: a rule that cannot be read does not match *)
Definition pod_matches (re : text -> option (text -> bool)) (d : pod) (p : fpkg) : bool :=
  match parse_prule re (pod_text d) with Some r => papply re r p | None => false end.
(** PF:57-79 [excludes] *)
Fixpoint pexcludes_loop (re : text -> option (text -> bool)) (inc : list pod) (ex : list pod) (p : fpkg) : option pod :=
  match ex with
  | [] => None
  | d :: ex' => if pod_matches re d p && negb (existsb (fun i => pod_matches re i p) inc) then Some d else pexcludes_loop re inc ex' p
  end.
(** PF:57-79, with the above *)
Definition pexcludes (re : text -> option (text -> bool)) (f : pfilter) (p : fpkg) : option pod := pexcludes_loop re (pf_in f) (pf_ex f) p.
(** PF:84-96 [includes] *)
Definition pincludes (re : text -> option (text -> bool)) (f : pfilter) (p : fpkg) : bool :=
  if existsb (fun i => pod_matches re i p) (pf_in f) then true else match pexcludes re f p with Some _ => false | None => true end.
(** PF:99-110 [add_exclusion], [add_inclusion] *)
Definition padd_ex (r : prule) (f : pfilter) : pfilter := mkPfilter (pf_ex f ++ [rule_pod r]) (pf_in f).
(** PF:99-110, with the above *)
Definition padd_in (r : prule) (f : pfilter) : pfilter := mkPfilter (pf_ex f) (pf_in f ++ [rule_pod r]).
(** PF:113-124 [add_exclusion_from_str], [add_inclusion_from_str] *)
Fixpoint padd_ex_texts (re : text -> option (text -> bool)) (ts : list text) (f : pfilter) : option pfilter :=
  match ts with
  | [] => Some f
  | t :: ts' => match parse_prule re t with Some r => padd_ex_texts re ts' (padd_ex r f) | None => None end
  end.
(** PF:113-124, with the above *)
Fixpoint padd_in_texts (re : text -> option (text -> bool)) (ts : list text) (f : pfilter) : option pfilter :=
  match ts with
  | [] => Some f
  | t :: ts' => match parse_prule re t with Some r => padd_in_texts re ts' (padd_in r f) | None => None end
  end.
(** PF:129-153 [to_pod]: the two lists; a missing key is an empty list *)
Definition pto_pod (f : pfilter) : list text * list text := (map pod_text (pf_ex f), map pod_text (pf_in f)).
(** PF:156-172 [from_pod] *)
Definition pfrom_pod (re : text -> option (text -> bool)) (d : list text * list text) : option pfilter :=
  match padd_ex_texts re (fst d) no_pfilter with Some f => padd_in_texts re (snd d) f | None => None end.
(** PF:212-242 [Display], of which PF:175-195 [sha1] is the digest *)
Definition pods_text (ds : list pod) : text := join (T ", ") (map (fun d => pd_type d ++ T ":" ++ pd_pattern d) ds).
(** PF:212-242, with the above *)
Definition pfilter_text (f : pfilter) : text :=
  T "PackageFilter(" ++
  (if is_nil (pf_ex f) then [] else T "exclusions=[" ++ pods_text (pf_ex f) ++ T "]") ++
  (if is_nil (pf_in f) then [] else (if is_nil (pf_ex f) then [] else T ", ") ++ T "inclusions=[" ++ pods_text (pf_in f) ++ T "]") ++ T ")".

(** ** Filters of the package crate *)
(** FL:39-42, 86-89, 133-135, 185-189: the rules; the compiled patterns are those of the texts *)
Inductive rule := RGlob (pat : text) | RRegex (pat : text) | RRange (r : requirement) | RTime (ts : Z) (inclusive before : bool).
(** FL:56-58, 103-105, 147-157, 230-246 [matches] *)
Definition rmatches (gl re : text -> option (text -> bool)) (r : rule) (p : fpkg) : bool :=
  match r with
  | RGlob pat => match gl pat with Some m => m (fp_name p) | None => false end
  | RRegex pat => match re pat with Some m => m (fp_name p) | None => false end
  | RRange q => match fp_version p, rq_constraint q with Some v, Some c => c_satisfied c v | _, _ => false end
  | RTime ts incl before =>
      match fp_time p with
      | Some t => if before then (if incl then t <=? ts else t <? ts)%Z else (if incl then ts <=? t else ts <? t)%Z
      | None => false
      end
  end.
(** decimal text of an [i64] *)
Definition show_Z (z : Z) : text := if (z <? 0)%Z then T "-" ++ show_N (Z.to_N (- z)) else show_N (Z.to_N z).
(** FL:64-66, 111-113, 163-165, 252-256 [to_pod] *)
Definition rule_text (r : rule) : text :=
  match r with
  | RGlob pat => T "glob(" ++ pat ++ T ")"
  | RRegex pat => T "regex(" ++ pat ++ T ")"
  | RRange q => T "range(" ++ show_requirement q ++ T ")"
  | RTime ts incl before => T "timestamp(" ++ (if before then T "before" else T "after") ++ (if incl then T ":" else []) ++ show_Z ts ++ T ")"
  end.
(** FL:509-558: the text between a head of [n] characters and the last bracket; [None] if it does not start and end so *)
Definition between (head s : text) : option text :=
  if starts_with head s && ends_with (T ")") s then Some (firstn (length s - 1 - length head) (skipn (length head) s)) else None.
(** FL:509-558 [parse_rule] *)
Definition parse_auto (gl : text -> option (text -> bool)) (s : text) : option rule :=
  if contains_text (T "*") s || contains_text (T "?") s || (contains_text (T "[") s && contains_text (T "]") s)
  then match gl s with Some _ => Some (RGlob s) | None => None end else None.
(** FL:509-558, with the above *)
Definition parse_time_rule (gl : text -> option (text -> bool)) (s x : text) : option rule :=
  match find_char ":" x with
  | Some (a, b) => match parse_i64 b with
                   | None => None
                   | Some t => if text_eqb a (T "before") then Some (RTime t false true)
                               else if text_eqb a (T "after") then Some (RTime t false false) else parse_auto gl s
                   end
  | None => parse_auto gl s
  end.
(** FL:509-558, with the above *)
Definition parse_rule (gl re : text -> option (text -> bool)) (s0 : text) : option rule :=
  let s := trim s0 in
  match between (T "glob(") s with
  | Some pat => match gl pat with Some _ => Some (RGlob pat) | None => None end
  | None => match between (T "regex(") s with
  | Some pat => match re pat with Some _ => Some (RRegex pat) | None => None end
  | None => match between (T "range(") s with
  | Some x => match parse_requirement x with Some q => Some (RRange q) | None => None end
  | None => match between (T "timestamp(") s with
  | Some x => parse_time_rule gl s x
  | None => parse_auto gl s
  end end end end.
(** maps from an optional family to rules (FL:279-282) *)
Definition rmap := list (option text * list rule).
(** FL:279-282, with the above *)
Definition key_eqb (a b : option text) : bool :=
  match a, b with Some x, Some y => text_eqb x y | None, None => true | _, _ => false end.
(** FL:279-282, with the above *)
Fixpoint rget (k : option text) (m : rmap) : list rule :=
  match m with [] => [] | (k', rs) :: m' => if key_eqb k k' then rs else rget k m' end.
(** FL:279-282, with the above *)
Fixpoint rpush (k : option text) (r : rule) (m : rmap) : rmap :=
  match m with [] => [(k, [r])] | (k', rs) :: m' => if key_eqb k k' then (k', rs ++ [r]) :: m' else (k', rs) :: rpush k r m' end.
(** FL:279-282 [PackageFilter] *)
Record filter_ := mkFilter { f_ex : rmap; f_in : rmap }.
(** FL:279-282, with the above *)
Definition no_filter : filter_ := mkFilter [] [].
(** FL:326-339 [add_exclusion], [add_inclusion] *)
Definition add_ex (k : option text) (r : rule) (f : filter_) : filter_ := mkFilter (rpush k r (f_ex f)) (f_in f).
(** FL:326-339, with the above *)
Definition add_in (k : option text) (r : rule) (f : filter_) : filter_ := mkFilter (f_ex f) (rpush k r (f_in f)).
(** FL:347-378 [excludes] *)
Definition excludes (gl re : text -> option (text -> bool)) (f : filter_) (p : fpkg) : bool :=
  let ex := rget (Some (fp_name p)) (f_ex f) ++ rget None (f_ex f) in
  let inc := rget (Some (fp_name p)) (f_in f) ++ rget None (f_in f) in
  if negb (existsb (fun r => rmatches gl re r p) ex) then false else negb (existsb (fun r => rmatches gl re r p) inc).
(** FL:381-383, 488-490 [filter_packages] *)
Definition filter_packages (ex : fpkg -> bool) (ps : list fpkg) : list fpkg := filter (fun p => negb (ex p)) ps.
(** FL:386-410 [to_pod]; [ord] is the order in which the map is read *)
Definition to_pod (ord : rmap -> rmap) (f : filter_) : list text * list text :=
  (map rule_text (flat_map snd (ord (f_ex f))), map rule_text (flat_map snd (ord (f_in f)))).
(** FL:413-437 [from_pod] *)
Fixpoint add_texts (gl re : text -> option (text -> bool)) (add : rule -> filter_ -> filter_) (ts : list text) (f : filter_) : option filter_ :=
  match ts with
  | [] => Some f
  | t :: ts' => match parse_rule gl re t with Some r => add_texts gl re add ts' (add r f) | None => None end
  end.
(** FL:413-437, with the above *)
Definition from_pod (gl re : text -> option (text -> bool)) (d : list text * list text) : option filter_ :=
  match add_texts gl re (add_ex None) (fst d) no_filter with Some f => add_texts gl re (add_in None) (snd d) f | None => None end.
(** FL:483-485 [PackageFilterList::excludes] *)
Definition list_excludes (gl re : text -> option (text -> bool)) (fs : list filter_) (p : fpkg) : bool := existsb (fun f => excludes gl re f p) fs.
