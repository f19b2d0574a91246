(** Model of what a resolution is given as, and of the small collections beside the solver.
    Source: crates/rez-next-solver/src/resolution.rs (RS), crates/rez-next-solver/src/requirement_list.rs (RL), crates/rez-next-solver/src/package_variant.rs (PV),
    crates/rez-next-solver/src/reduction.rs (RD), crates/rez-next-package/src/package/methods.rs (PM).
    Simplifications: texts are ASCII; of a package the parts below are kept; a pattern has letters, digits, underscores, dashes, points and stars, so that only points and stars mean something in
    the regular expression; a HashMap is a list without two entries of a key, its order is that of the list; counters do not overflow; the rate of hits, times, the scripts for other shells than bash and the other data are left out. *)
From Verif Require Import Base Maps Sorting.
From Verif Require Scan_model Env_model.
Open Scope string_scope. Open Scope list_scope.

(** RS:11, PM:137-198: the parts of a package that are used *)
Record package := mkPackage { p_name : text; p_version : option text; p_requires : list text; p_build : list text; p_private : list text; p_variants : list (list text); p_tools : list text; p_commands : option text }.
(** PM:137-198 [validate] *)
Definition valid_package (p : package) : bool :=
  negb (is_nil (p_name p)) && forallb (fun c => is_alnum c || Ascii.eqb c "_" || Ascii.eqb c "-") (p_name p) && match p_version p with Some v => negb (is_nil v) | None => true end &&
  forallb (fun r => negb (is_nil r)) (p_requires p) && forallb (fun r => negb (is_nil r)) (p_build p) && forallb (fun r => negb (is_nil r)) (p_private p) && forallb (forallb (fun r => negb (is_nil r))) (p_variants p).

(** ** Results *)
(** RS:53-55 [get_package] *)
Definition get_package (ps : list package) (n : text) : option package := find (fun p => text_eqb (p_name p) n) ps.
(** RS:58-60 [get_package_names] *)
Definition package_names (ps : list package) : list text := map p_name ps.
(** RS:63-65 [contains_package] *)
Definition contains_package (ps : list package) (n : text) : bool := existsb (fun p => text_eqb (p_name p) n) ps.
(** RS:76-90 [matches_pattern] *)
Definition matches (s pattern : text) : bool :=
  if text_eqb pattern (T "*") then true else if existsb (Ascii.eqb "*") pattern then Scan_model.tmatch (Scan_model.name_tokens pattern) s else text_eqb s pattern.
(** RS:68-73 [find_packages] *)
Definition find_packages (ps : list package) (pattern : text) : list package := filter (fun p => matches (p_name p) pattern) ps.
(** RS:98-102: the version in a summary *)
Definition shown (p : package) : text := match p_version p with Some v => v | None => T "latest" end.
(** RS:93-115 [get_summary]: the number of packages, the bytes and the versions *)
Definition summary (ps : list package) : nat * N * list (text * text) :=
  (length ps, fold_left (fun n _ => (n + 1048576)%N) ps 0%N, fold_left (fun m p => aput (p_name p) (shown p) m) ps []).
(** RS:122-125 *)
Definition key (p : package) : text := match p_version p with Some v => p_name p ++ T "-" ++ v | None => p_name p end.
(** RS:118-141: what it says *)
Inductive verdict := Fine | Duplicate (k : text) | Invalid (n : text).
(** RS:121-131: the first package whose key was seen *)
Fixpoint duplicate (seen : list text) (ps : list package) : option text :=
  match ps with [] => None | p :: r => if mem_text (key p) seen then Some (key p) else duplicate (key p :: seen) r end.
(** RS:118-141 [validate] *)
Definition validate (ps : list package) : verdict :=
  match duplicate [] ps with Some k => Duplicate k | None => match find (fun p => negb (valid_package p)) ps with Some p => Invalid (p_name p) | None => Fine end end.
(** RS:202-211 [PackageSpec] *)
Record spec := mkSpec { s_name : text; s_version : option text; s_requires : list text; s_tools : list text }.
(** RS:149-154 *)
Definition spec_of (p : package) : spec := mkSpec (p_name p) (p_version p) (p_requires p) (p_tools p).
(** RS:160 *)
Definition variable (n : text) : text := map to_upper n ++ T "_COMMANDS".
(** RS:144-171 [to_environment_spec]: the packages and the variables *)
Definition environment (ps : list package) : list spec * list (text * text) :=
  (map spec_of ps, fold_left (fun m p => match p_commands p with Some c => aput (variable (p_name p)) c m | None => m end) ps []).
(** RS:230-238 [get_all_tools] *)
Definition all_tools (ss : list spec) : list text := Env_model.dedup (sort_by text_cmp (flat_map s_tools ss)).
(** RS:241-261 [generate_shell_script] for bash; character 34 is the double quote and 10 the line feed *)
Definition bash_script (e : list spec * list (text * text)) : text :=
  T "#!/bin/bash" ++ ["010"%char] ++ T "# Generated by rez-core" ++ ["010"%char; "010"%char] ++
  flat_map (fun v => T "export " ++ fst v ++ T "=" ++ ["034"%char] ++ snd v ++ ["034"%char; "010"%char]) (snd e) ++
  match all_tools (fst e) with
  | [] => []
  | ts => ["010"%char] ++ T "# Add tools to PATH" ++ ["010"%char] ++ flat_map (fun t => T "export PATH=" ++ ["034"%char] ++ T "$PATH:/path/to/" ++ t ++ ["034"%char; "010"%char]) ts
  end.

(** ** Collections *)
(** RL:14-17, 28-33 [add_requirement]: a requirement is a text that stands under its name *)
Definition add_requirement (n r : text) (m : list (text * list text)) : list (text * list text) := aput n (match aget n m with Some l => l ++ [r] | None => [r] end) m.
(** RL:36-38 [remove_requirements] *)
Definition remove_requirements (n : text) (m : list (text * list text)) : list (text * list text) := adel n m.
(** RL:41-46 [get_requirements] *)
Definition get_requirements (n : text) (m : list (text * list text)) : list text := match aget n m with Some l => l | None => [] end.
(** RL:49-51 [all_requirements] *)
Definition all_requirements (m : list (text * list text)) : list text := flat_map snd m.
(** RL:59-61 [len] *)
Definition list_len (m : list (text * list text)) : nat := length m.
(** RL:54-56 [is_empty] *)
Definition list_empty (m : list (text * list text)) : bool := is_nil m.

(** PV:60-67 [PackageVariantCache]: the variants, hits and misses *)
Record vcache := mkVcache { v_entries : list (text * list text); v_hits : nat; v_misses : nat }.
(** PV:80-88 [get_variants] *)
Definition get_variants (n : text) (c : vcache) : option (list text) * vcache :=
  if ahas n (v_entries c) then (aget n (v_entries c), mkVcache (v_entries c) (S (v_hits c)) (v_misses c)) else (None, mkVcache (v_entries c) (v_hits c) (S (v_misses c))).
(** PV:91-93 [cache_variants] *)
Definition cache_variants (n : text) (vs : list text) (c : vcache) : vcache := mkVcache (aput n vs (v_entries c)) (v_hits c) (v_misses c).
(** PV:96-98 [invalidate] *)
Definition invalidate (n : text) (c : vcache) : vcache := mkVcache (adel n (v_entries c)) (v_hits c) (v_misses c).
(** PV:101-105 [clear] *)
Definition clear (c : vcache) : vcache := mkVcache [] 0 0.
(** RD:46-52, 64-67 [add_reduction]: the reductions and their number *)
Definition add_reduction (r : text) (t : list text * nat) : list text * nat := (fst t ++ [r], S (snd t)).
