(** Model of the search command (src/cli/commands/search_v2: matcher.rs, filter.rs, types.rs) and of the times and
    paths of the command line (src/cli/utils.rs).
    Simplifications: lower case is ASCII; scores are sums of small whole numbers (f64 in the code, exact there); the
    date formats of chrono, the regular expression library, the clock and the answers of the repository manager are
    parameters; display and the failure of repositories are left out. *)
From Verif Require Import Base Version_model Maps Sorting Range_model Package_model Order_model Pyfile_model.
Open Scope string_scope.
Open Scope list_scope.

(** ** utils.rs *)

(** a byte that continues a character: a text cannot be cut before it *)
Definition continues (c : ascii) : bool := (128 <=? code c)%N && (code c <? 192)%N.

Section Times.
(** utils.rs:160 and 164: chrono's reading of a date with time, and of a date *)
Context (iso_datetime iso_date : text -> option Z).
(** utils.rs:187 the clock *)
Context (now : Z).

(** utils.rs:180-186 the seconds of a unit *)
Definition unit_seconds (c : ascii) : option Z :=
  if Ascii.eqb c "d" || Ascii.eqb c "D" then Some 86400%Z
  else if Ascii.eqb c "w" || Ascii.eqb c "W" then Some (7 * 86400)%Z
  else if Ascii.eqb c "m" || Ascii.eqb c "M" then Some (30 * 86400)%Z
  else if Ascii.eqb c "y" || Ascii.eqb c "Y" then Some (365 * 86400)%Z
  else None.
(** utils.rs:173-189 [parse_relative_time] in a release build, where products wrap around (n * 7 * 86400 wraps to the
    same value as n * (7 * 86400)); line 178 panics when the last byte is inside a character *)
Definition parse_relative_time (s0 : text) : res (option Z) :=
  let s := trim s0 in
  match rev s with
  | [] => Ok None
  | u :: r =>
      if continues u then Panic
      else match parse_i64 (rev r) with
      | None => Ok None
      | Some n => match unit_seconds u with
                  | None => Ok None
                  | Some k => Ok (Some (wrap64 (now - wrap64 (n * k))))
                  end
      end
  end.
(** utils.rs:158-169 [parse_timestamp] *)
Definition parse_timestamp (s : text) : res (option Z) :=
  match iso_datetime s with
  | Some t => Ok (Some t)
  | None => match iso_date s with
            | Some t => Ok (Some t)
            | None => parse_relative_time s
            end
  end.
(** utils.rs:196-204 [parse_time_spec] *)
Definition parse_time_spec (s : text) : res Z :=
  match parse_timestamp s with
  | Ok (Some t) => if (0 <=? t)%Z then Ok t else Err
  | Ok None => Err
  | Err => Err
  | Panic => Panic
  end.
End Times.

(** utils.rs:106-109: the separator of the platform *)
Definition path_sep (win : bool) : ascii := if win then ";"%char else ":"%char.
(** utils.rs:104-115 [split_package_paths]; the separator is a colon, or a semicolon on Windows *)
Definition split_package_paths (win : bool) (s : text) : list text :=
  filter (fun p => negb (is_nil p)) (map trim (split_on (path_sep win) s)).

(** PathBuf::join on Unix *)
Definition path_join (a b : text) : text :=
  if starts_with (T "/") b then b
  else if is_nil a || ends_with (T "/") a then a ++ b
  else a ++ T "/" ++ b.
(** utils.rs:128-139 [expand_home_path] on Unix, as texts *)
Definition expand_home (userprofile home : option text) (p : text) : text :=
  let h := match userprofile with Some x => Some x | None => home end in
  if text_eqb p (T "~") then match h with Some x => x | None => p end
  else match (match strip_prefix (T "~/") p with Some r => Some r | None => strip_prefix (T "~\") p end), h with
       | Some r, Some x => path_join x r
       | _, _ => p
       end.

(** ** the search command *)

(** types.rs:10-73 SearchArgs, the fields that decide the result *)
Record qargs := mkArgs {
  q_query : text; q_description : bool; q_tools : bool; q_requirements : bool; q_case : bool; q_regex : bool;
  q_latest : bool; q_limit : nat; q_sort : text; q_newer : option text; q_older : option text; q_type : text; q_variant : option text }.
(** the names of fields in match_fields (matcher.rs:46-144) *)
Inductive field := FName | FDescription | FTools | FRequirements.
(** types.rs:75-82 SearchResult, without the fixed repository name *)
Record hit := mkHit { h_package : package; h_score : nat; h_fields : list field }.

Section Search.
(** regex::Regex::new and is_match *)
Context (re : text -> option (text -> bool)).
(** the description of a package, one of the fields kept in p_rest *)
Context (description : N -> option text).
Context (iso_datetime iso_date : text -> option Z) (now : Z).

(** matcher.rs:28-39: the text compared, in lower case unless asked otherwise *)
Definition folded (a : qargs) (s : text) : text := if q_case a then s else map to_lower s.
(** matcher.rs:41-49, 63-73: does a text match *)
Definition text_matches (a : qargs) (s : text) : bool :=
  let query := folded a (q_query a) in
  if q_regex a then match re query with Some m => m (folded a s) | None => false end
  else contains_text query (folded a s).
(** matcher.rs:128-143: the plain comparison of the default fields *)
Definition text_contains (a : qargs) (s : text) : bool := contains_text (folded a (q_query a)) (folded a s).

(** matcher.rs:41-51 *)
Definition name_score (a : qargs) (p : package) : nat :=
  if text_matches a (p_name p) then
    if q_regex a then 10 else if text_eqb (folded a (p_name p)) (folded a (q_query a)) then 10 else 5
  else 0.
(** matcher.rs:54-75 *)
Definition description_score (a : qargs) (p : package) : nat :=
  if q_description a then match description (p_rest p) with Some d => if text_matches a d then 3 else 0 | None => 0 end else 0.
(** matcher.rs:78-100: the first matching tool counts *)
Definition tools_score (a : qargs) (p : package) : nat := if q_tools a then if existsb (text_matches a) (p_tools p) then 2 else 0 else 0.
(** matcher.rs:103-125 *)
Definition requirements_score (a : qargs) (p : package) : nat := if q_requirements a then if existsb (text_matches a) (p_requires p) then 1 else 0 else 0.
(** matcher.rs:128 *)
Definition by_default (a : qargs) : bool := negb (q_description a) && negb (q_tools a) && negb (q_requirements a).
(** matcher.rs:130-142 *)
Definition default_description (a : qargs) (p : package) : nat :=
  if by_default a then match description (p_rest p) with Some d => if text_contains a d then 2 else 0 | None => 0 end else 0.
(** matcher.rs:144-157 *)
Definition default_tools (a : qargs) (p : package) : nat :=
  if by_default a then if existsb (text_contains a) (p_tools p) then 1 else 0 else 0.
(** a field is named when it scores *)
Definition named_field (f : field) (n : nat) : list field := match n with O => [] | _ => [f] end.
(** matcher.rs:21-170 [evaluate_package_match] *)
Definition evaluate (a : qargs) (p : package) : option hit :=
  let s1 := name_score a p in let s2 := description_score a p in let s3 := tools_score a p in
  let s4 := requirements_score a p in let s5 := default_description a p in let s6 := default_tools a p in
  let score := s1 + s2 + s3 + s4 + s5 + s6 in
  if Nat.ltb 0 score then
    Some (mkHit p score (named_field FName s1 ++ named_field FDescription s2 ++ named_field FTools s3 ++ named_field FRequirements s4 ++
                         named_field FDescription s5 ++ named_field FTools s6))
  else None.

(** matcher.rs:10-17 [get_package_timestamp] *)
Definition package_time (p : package) : Z := match p_timestamp p with Some t => t | None => 0%Z end.
(** filter.rs:31-44: the times, where a text that is no time is no filter *)
Definition time_kept (newer older : option Z) (p : package) : bool :=
  match newer with Some n => negb (package_time p <=? n)%Z | None => true end &&
  match older with Some o => negb (o <=? package_time p)%Z | None => true end.
(** filter.rs:56-66 and 72-82 *)
Definition variant_match (req : text) (p : package) : bool :=
  existsb (existsb (fun r => contains_text (map to_lower req) (map to_lower r))) (p_variants p).
(** filter.rs:47-84 *)
Definition type_kept (a : qargs) (p : package) : bool :=
  if text_eqb (q_type a) (T "family") then true
  else if text_eqb (q_type a) (T "variant") then
    negb (is_nil (p_variants p)) && match q_variant a with Some r => variant_match r p | None => true end
  else match q_variant a with Some r => variant_match r p | None => true end.

(** filter.rs:112-139 [sort_results] *)
Definition hit_cmp (key : text) (x y : hit) : comparison :=
  if text_eqb key (T "version") then descending (h_package x) (h_package y)
  else if text_eqb key (T "score") then Nat.compare (h_score y) (h_score x)
  else text_cmp (p_name (h_package x)) (p_name (h_package y)).

(** filter.rs:93-105: one result for each name, the first with the greatest score *)
Definition family_step (m : list (text * hit)) (r : hit) : list (text * hit) :=
  match aget (p_name (h_package r)) m with
  | Some e => if Nat.ltb (h_score e) (h_score r) then aput (p_name (h_package r)) r m else m
  | None => aput (p_name (h_package r)) r m
  end.
(** filter.rs:146-164: one result for each name, the first with the greatest version *)
Definition latest_step (m : list (text * hit)) (r : hit) : list (text * hit) :=
  match aget (p_name (h_package r)) m with
  | Some e => match p_version (h_package r), p_version (h_package e) with
              | Some n, Some o => match vcmp n o with Gt => aput (p_name (h_package r)) r m | _ => m end
              | Some _, None => aput (p_name (h_package r)) r m
              | None, _ => m
              end
  | None => aput (p_name (h_package r)) r m
  end.
(** the order in which the values of a map are taken *)
Context (ord : list hit -> list hit).
(** filter.rs:93-106 *)
Definition families (l : list hit) : list hit := ord (map snd (fold_left family_step l [])).
(** filter.rs:143-169 [filter_latest_versions] *)
Definition latest_versions (l : list hit) : list hit := ord (map snd (fold_left latest_step l [])).

(** RepositoryManager::list_packages and find_packages (Repo_model.v) *)
Context (names : list text) (packages_of : text -> list package).

(** filter.rs:27-90: the results of all packages *)
Definition all_hits (a : qargs) (newer older : option Z) : list hit :=
  flat_map (fun n => flat_map (fun p =>
    if time_kept newer older p && type_kept a p then match evaluate a p with Some h => [h] | None => [] end else []) (packages_of n)) names.
(** filter.rs:92-109 *)
Definition shown_hits (a : qargs) (newer older : option Z) : list hit :=
  let l := all_hits a newer older in
  let l := if text_eqb (q_type a) (T "family") then families l else l in
  let l := sort_by (hit_cmp (q_sort a)) l in
  let l := if q_latest a then latest_versions l else l in
  firstn (q_limit a) l.
(** filter.rs:21-22: an optional time *)
Definition time_arg (o : option text) : res (option Z) :=
  match o with Some s => parse_timestamp iso_datetime iso_date now s | None => Ok None end.
(** filter.rs:14-112 [perform_search] *)
Definition perform_search (a : qargs) : res (list hit) :=
  bind (time_arg (q_newer a)) (fun newer => bind (time_arg (q_older a)) (fun older => Ok (shown_hits a newer older))).
End Search.
