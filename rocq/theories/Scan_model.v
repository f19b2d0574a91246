(** Model of the repositories that scan directories.
    Sources, all in crates/rez-next-repository/src: filesystem.rs (FR), repository.rs (RP), scanner/path.rs (SP), scanner/scan.rs (SS), scanner/cache.rs (SC), scanner/mod.rs (SM),
    scanner_types.rs (ST), high_performance_scanner.rs (HS).
    Simplifications: texts are ASCII; the disk does not change while it is scanned, and is seen through functions that follow links; a path is its text, parts are joined by slashes;
    patterns have letters, digits, underscores, dashes, slashes, points, stars and question marks, so that only points, stars and question marks mean something in the regular
    expression; loading is a function of a file or its text; maps are visited in the order of a list; files are scanned one after another, which gives the same packages; times, sizes held in
    memory and the periodic clean-up of the cache are left out. *)
From Verif Require Import Base Maps Sorting Version_model Package_model Order_model.
Open Scope string_scope. Open Scope list_scope.

(** ** The disk *)
(** FR:323, SS:155, 210: what [is_dir], [is_file] and [exists] tell *)
Inductive kind := KFile | KDir | KOther | KNone.
(** FR:315, SS:143, 259, 291: the disk: kinds, entries of directories that can be read, time and size, and text *)
Record disk := mkDisk { d_kind : text -> kind; d_list : text -> option (list text); d_stat : text -> option (N * N); d_text : text -> option text }.
(** FR:322, 386, [Path::join] and [DirEntry::path] *)
Definition child (p n : text) : text := p ++ "/"%char :: n.
(** FR:323 *)
Definition is_dir (k : kind) : bool := match k with KDir => true | _ => false end.
(** SS:210 *)
Definition is_file (k : kind) : bool := match k with KFile => true | _ => false end.
(** FR:96, 328, 389 *)
Definition is_there (k : kind) : bool := match k with KNone => false | _ => true end.

(** ** Patterns *)
(** SP:22-27, FR:463-465: the parts of the regular expression: a character, a point, a point with a star, and anything but slashes *)
Inductive tok := TLit (c : ascii) | TAny | TStar | TSeg.
(** SP:20-28 [glob_to_regex], 106-114: two stars first; points are not escaped *)
Fixpoint glob_tokens (p : text) : list tok :=
  match p with
  | [] => []
  | c :: r =>
    if Ascii.eqb c "*" then match r with d :: s => if Ascii.eqb d "*" then TStar :: glob_tokens s else TSeg :: glob_tokens r | [] => [TSeg] end
    else if Ascii.eqb c "?" || Ascii.eqb c "." then TAny :: glob_tokens r
    else TLit c :: glob_tokens r
  end.
(** FR:463-465 *)
Definition name_tokens (p : text) : list tok := map (fun c => if Ascii.eqb c "*" then TStar else if Ascii.eqb c "?" || Ascii.eqb c "." then TAny else TLit c) p.
(** SP:27, FR:465: the characters that a point stands for in a regular expression; 10 is the line feed *)
Definition dot_char (c : ascii) : bool := negb (Ascii.eqb c "010").
(** SP:27, FR:465-466: whether the whole text matches *)
Fixpoint tmatch (ts : list tok) (s : text) {struct ts} : bool :=
  match ts with
  | [] => is_nil s
  | TLit c :: r => match s with d :: s' => Ascii.eqb c d && tmatch r s' | [] => false end
  | TAny :: r => match s with d :: s' => dot_char d && tmatch r s' | [] => false end
  | TStar :: r => (fix loop (s : text) : bool := tmatch r s || match s with d :: s' => dot_char d && loop s' | [] => false end) s
  | TSeg :: r => (fix loop (s : text) : bool := tmatch r s || match s with d :: s' => negb (Ascii.eqb d "/") && loop s' | [] => false end) s
  end.
(** FR:457-471 [matches_pattern] *)
Definition name_matches (name pattern : text) : bool := if text_eqb pattern (T "*") then true else tmatch (name_tokens pattern) name.
(** SP:100-124 [matches_pattern] *)
Definition file_matches (name pattern : text) : bool := if text_eqb pattern (T "*") then true else tmatch (glob_tokens pattern) name.

(** ** The repository in a file system *)
(** RP:107-122 [RepositoryStats], without times *)
Record stats := mkStats { t_packages : nat; t_versions : nat; t_variants : nat; t_size : N }.
(** FR:19-30 [FileSystemRepository]: packages by name and version, names of variants, statistics, whether it is ready *)
Record repo := mkRepo { f_packages : list (text * list (text * package)); f_variants : list (text * list text); f_stats : stats; f_ready : bool }.
(** FR:33-58 [new] *)
Definition new_repo : repo := mkRepo [] [] (mkStats 0 0 0 0) false.
(** FR:393-398 *)
Definition version_key (p : package) : text := match p_version p with Some v => v_str v | None => T "latest" end.
(** FR:401-404 [entry().or_default().insert()] *)
Definition add_package (p : package) (c : list (text * list (text * package))) : list (text * list (text * package)) :=
  aput (p_name p) (aput (version_key p) p (match aget (p_name p) c with Some vs => vs | None => [] end)) c.
(** FR:411-416 *)
Definition variant_names (n : nat) : list text := map (fun i => T "variant_" ++ show_N (N.of_nat i)) (seq 0 n).
(** FR:418, 255 *)
Definition dashed (n v : text) : text := n ++ "-"%char :: v.
(** FR:410-420 *)
Definition add_variants (p : package) (m : list (text * list text)) : list (text * list text) :=
  if is_nil (p_variants p) then m else aput (dashed (p_name p) (version_key p)) (variant_names (length (p_variants p))) m.
Section Repository.
Variable load_file : text -> option package.
Variable d : disk.
(** FR:374-446 [scan_package_directory] *)
Definition scan_one (dir : text) (s : list (text * list (text * package)) * list (text * list text) * stats) : list (text * list (text * package)) * list (text * list text) * stats :=
  let file := child dir (T "package.py") in
  if is_there (d_kind d file) then
    match load_file file with
    | Some p =>
      let '(c, m, t) := s in
      (add_package p c, add_variants p m,
       mkStats (S (t_packages t)) (S (t_versions t)) (t_variants t + length (p_variants p)) (t_size t + match d_stat d file with Some (_, n) => n | None => 0 end)%N)
    | None => s
    end
  else s.
(** FR:319-363: one entry of the root *)
Definition scan_family (root : text) (s : list (text * list (text * package)) * list (text * list text) * stats) (f : text) :=
  let dir := child root f in
  if is_dir (d_kind d dir) then
    if is_there (d_kind d (child dir (T "package.py"))) then scan_one dir s
    else match d_list d dir with
         | Some es => fold_left (fun s e => if is_dir (d_kind d (child dir e)) then scan_one (child dir e) s else s) es s
         | None => s
         end
  else s.
(** FR:92-130 [initialize], 136-138 [refresh], 303-371 [scan_packages]: whether it went well, and the repository *)
Definition initialize (root : text) (r : repo) : bool * repo :=
  if is_there (d_kind d root) then
    match d_list d root with
    | Some es => let '(c, m, t) := fold_left (scan_family root) es ([], [], mkStats 0 0 0 0) in (true, mkRepo c m t true)
    | None => (false, mkRepo [] [] (f_stats r) (f_ready r))
    end
  else (false, r).
End Repository.
(** RP:42-53 [PackageSearchCriteria]; a requirement is a name and what satisfies it *)
Record criteria := mkCriteria { c_pattern : option text; c_version : option text; c_requires : list (text * (version -> bool)); c_limit : option nat; c_prerelease : bool }.
(** FR:157-172: packages that are passed over *)
Definition passed_over (c : criteria) (p : package) : bool :=
  match p_version p with
  | Some v => (match c_version c with Some r => negb (is_nil r) && negb (text_eqb (v_str v) r) | None => false end) || (negb (c_prerelease c) && is_prerelease v)
  | None => false
  end.
(** FR:175-184 *)
Definition satisfies (c : criteria) (p : package) : bool :=
  forallb (fun r => negb (text_eqb (fst r) (p_name p) && match p_version p with Some v => negb (snd r v) | None => false end)) (c_requires c).
(** FR:155-199: the packages one after another, up to the limit *)
Fixpoint gather (c : criteria) (l : list package) (acc : list package) : list package :=
  match l with
  | [] => acc
  | p :: r =>
    if passed_over c p then gather c r acc
    else let acc := if satisfies c p then acc ++ [p] else acc in
         if match c_limit c with Some n => (n <=? length acc)%nat | None => false end then acc else gather c r acc
  end.
(** FR:140-200 [find_packages] *)
Definition find_packages (c : criteria) (r : repo) : list package :=
  gather c (flat_map (fun e => if match c_pattern c with Some p => name_matches (fst e) p | None => true end then map snd (snd e) else []) (f_packages r)) [].
(** FR:202-229 [get_package] *)
Definition get_package (n : text) (v : option version) (r : repo) : option package :=
  match aget n (f_packages r) with
  | Some vs => match v with Some v => aget (v_str v) vs | None => hd_error (sort_by descending (map snd vs)) end
  | None => None
  end.
(** FR:231-245 [get_package_versions] *)
Definition get_versions (n : text) (r : repo) : list version :=
  match aget n (f_packages r) with
  | Some vs => sort_by (fun a b => vcmp b a) (flat_map (fun e => match p_version (snd e) with Some v => [v] | None => [] end) vs)
  | None => []
  end.
(** FR:247-260 [get_package_variants] *)
Definition get_variants (n : text) (v : option version) (r : repo) : list text :=
  match aget (match v with Some v => dashed n (v_str v) | None => n end) (f_variants r) with Some l => l | None => [] end.
(** FR:262-277 [package_exists] *)
Definition package_exists (n : text) (v : option version) (r : repo) : bool :=
  match aget n (f_packages r) with
  | Some vs => match v with Some v => ahas (v_str v) vs | None => negb (is_nil vs) end
  | None => false
  end.
(** FR:279-284 [get_package_names] *)
Definition get_names (r : repo) : list text := sort_by text_cmp (akeys (f_packages r)).

(** ** Duplicates *)
(** RP:131-143 *)
Definition by_name (a b : package) : comparison := match text_cmp (p_name a) (p_name b) with Eq => descending a b | c => c end.
(** RP:150-153 *)
Definition unique_key (p : package) : text := match p_version p with Some v => dashed (p_name p) (v_str v) | None => p_name p end.
(** RP:146-158 *)
Fixpoint first_each (seen : list text) (l : list package) : list package :=
  match l with
  | [] => []
  | p :: r => if mem_text (unique_key p) seen then first_each seen r else p :: first_each (unique_key p :: seen) r
  end.
(** RP:129-161 [deduplicate_packages] *)
Definition deduplicate (l : list package) : list package := first_each [] (sort_by by_name l).

(** ** The scanner *)
(** ST:14-51 [ScannerConfig], what is used *)
Record settings := mkSettings { g_scans : nat; g_depth : nat; g_include : list text; g_exclude : list text; g_batch : nat; g_cache : bool; g_cache_mb : nat; g_prefix : bool }.
(** ST:53-91 [default] *)
Definition default_settings : settings :=
  mkSettings 20 10 [T "package.py"] (map T [".git/**"; ".svn/**"; "__pycache__/**"; "*.pyc"; ".DS_Store"; "node_modules/**"; ".vscode/**"; ".idea/**"]) 50 true 100 true.
(** SP:61-69: what is behind each slash, if there is something *)
Fixpoint tails (s : text) : list text :=
  match s with
  | [] => []
  | c :: r => if Ascii.eqb c "/" then (if is_nil r then [] else r :: tails r) else tails r
  end.
(** SP:50-72 [should_exclude_path] *)
Definition excluded (g : settings) (p : text) : bool := existsb (fun pat => existsb (tmatch (glob_tokens pat)) (p :: tails p)) (g_exclude g).
(** SP:42, SM:86 *)
Definition wild (p : text) : bool := existsb (fun c => Ascii.eqb c "*" || Ascii.eqb c "?") p.
(** SP:31-47 [is_package_file] *)
Definition package_file (g : settings) (name : text) : bool :=
  mem_text name (filter (fun p => negb (wild p)) (g_include g)) || existsb (file_matches name) (filter wild (g_include g)).
(** ST:93-106 [PackageScanResult], without the time it took *)
Record found := mkFound { o_package : package; o_file : text; o_dir : text; o_size : N }.
(** ST:172-185 [ScanCacheEntry] *)
Record entry := mkEntry { n_result : found; n_time : N; n_size : N; n_used : N }.
Section Scanner.
Variable load : text -> option package.
Variable d : disk.
Variable g : settings.
(** SS:123-163 [collect_directories_recursive]; the number is how many more levels there may be *)
Fixpoint collect (levels : nat) (p : text) : option (list text) :=
  match levels with
  | O => Some []
  | S k =>
    if excluded g p then Some []
    else match d_list d p with
         | None => None
         | Some es =>
           match (fix loop (l : list text) : option (list text) :=
                    match l with
                    | [] => Some []
                    | e :: r =>
                      if is_dir (d_kind d (child p e)) && negb (excluded g (child p e))
                      then match collect k (child p e), loop r with Some a, Some b => Some (a ++ b) | _, _ => None end
                      else loop r
                    end) es with
           | Some ds => Some (p :: ds)
           | None => None
           end
         end
  end.
(** SS:182-213: the package files in a directory *)
Definition files_in (dir : text) : list text :=
  match d_list d dir with
  | Some es => map (child dir) (filter (fun e => is_file (d_kind d (child dir e)) && package_file g e) es)
  | None => []
  end.
(** SS:337-350: entries are dropped when there are too many, those used longest ago first *)
Definition evict (c : list (text * entry)) : list (text * entry) :=
  if (g_cache_mb g * 1000 <? length c)%nat
  then let old := map fst (firstn (length c - g_cache_mb g * 800) (sort_by (fun a b => N.compare (n_used (snd a)) (n_used (snd b))) c)) in akeep (fun k => negb (mem_text k old)) c
  else c.
(** SS:252-354 [scan_package_file_optimized], at a time; the parent of a file is the directory in which it was found *)
Definition scan_file (now : N) (dir file : text) (c : list (text * entry)) : option found * list (text * entry) :=
  match d_stat d file with
  | None => (None, c)
  | Some (time, size) =>
    match (if g_cache g then match aget file c with Some e => if N.eqb (n_time e) time && N.eqb (n_size e) size then Some (n_result e) else None | None => None end else None) with
    | Some r => (Some r, c)
    | None =>
      match d_text d file with
      | None => (None, c)
      | Some t =>
        match load t with
        | None => (None, c)
        | Some p => let r := mkFound p file dir size in (Some r, if g_cache g then evict (aput file (mkEntry r time size now) c) else c)
        end
      end
    end
  end.
(** ST:108-123 [ScanResult]: packages, errors, numbers of directories and files; and the cache *)
Record scanned := mkScanned { z_packages : list (text * found); z_errors : list text; z_dirs : nat; z_files : nat; z_cache : list (text * entry) }.
(** SS:215-243: a file of a directory; [now] is the time at which it is scanned *)
Definition visit (now : text -> N) (s : scanned) (f : text * text) : scanned :=
  let '(dir, file) := f in
  match scan_file (now file) dir file (z_cache s) with
  | (Some r, c) => mkScanned (aput file r (z_packages s)) (z_errors s) (z_dirs s) (S (z_files s)) c
  | (None, c) => mkScanned (z_packages s) (z_errors s ++ [file]) (z_dirs s) (S (z_files s)) c
  end.
(** SS:28-120 [scan_repository], 59, 223: a panic in [chunks], and waiting for one of no permits *)
Inductive outcome := Scanned (s : scanned) | ScanError | ScanPanic | ScanStuck.
(** SS:28-120 *)
Definition scan_repository (now : text -> N) (root : text) (c : list (text * entry)) : outcome :=
  if is_dir (d_kind d root) then
    match collect (S (g_depth g)) root with
    | None => ScanError
    | Some dirs =>
      if Nat.eqb (g_batch g) 0 then ScanPanic
      else let files := flat_map (fun dir => map (pair dir) (files_in dir)) dirs in
           if Nat.eqb (g_scans g) 0 && negb (is_nil files) then ScanStuck
           else Scanned (fold_left (visit now) files (mkScanned [] [] (length dirs) 0 c))
    end
  else ScanError.
(** SC:196-203 [is_cache_entry_valid_static] *)
Definition entry_valid (e : entry) : bool := match d_stat d (o_file (n_result e)) with Some (time, size) => N.eqb time (n_time e) && N.eqb size (n_size e) | None => false end.
(** SC:91-92 [Path::starts_with] *)
Definition path_starts (p q : text) : bool := text_eqb p q || starts_with (p ++ T "/") q.
(** SC:70-103 [get_by_prefix]; [normal] is [normalize_path], the counters are left out *)
Definition get_by_prefix (normal : text -> text) (p : text) (c : list (text * entry)) : option found :=
  if g_prefix g then
    match (match aget (normal p) c with Some e => if entry_valid e then Some (n_result e) else None | None => None end) with
    | Some r => Some r
    | None => option_map (fun e => n_result (snd e)) (find (fun e => (path_starts (fst e) (normal p) || path_starts (normal p) (fst e)) && entry_valid (snd e)) c)
    end
  else None.

(** ** The fast scanner *)
(** HS:157, 212; [PathBuf] is compared by parts, as texts are with slashes before all other characters *)
Definition path_cmp (a b : text) : comparison := let key := map (fun c => if Ascii.eqb c "/" then "000"%char else c) in text_cmp (key a) (key b).
(** HS:142-169 [discover_directories]: the directories on the stack, with fuel *)
Fixpoint discover (fuel : nat) (stack : list text) : option (list text) :=
  match fuel with
  | O => None
  | S n =>
    match stack with
    | [] => Some []
    | p :: r =>
      match d_list d p with
      | None => discover n r
      | Some es => let subs := sort_by path_cmp (filter (fun q => is_dir (d_kind d q)) (map (child p) es)) in option_map (app subs) (discover n (rev subs ++ r))
      end
    end
  end.
(** HS:172-206 [discover_package_files_simd], 447-452 *)
Definition fast_files (dirs : list text) : list (text * text) :=
  flat_map (fun dir => match d_list d dir with Some es => map (fun e => (dir, child dir e)) (filter (fun e => is_file (d_kind d (child dir e)) && text_eqb e (T "package.py")) es) | None => [] end) dirs.
(** HS:176, 208-213: in the order of their paths, once each *)
Definition fast_order (fs : list (text * text)) : list (text * text) :=
  sort_by (fun a b => path_cmp (snd a) (snd b)) (map (fun e => (snd e, fst e)) (fold_left (fun m f => aput (snd f) (fst f) m) fs [])).
(** HS:94-97 *)
Definition fast_cap (n : nat) : nat := match n with O => 1000 | _ => n end.
(** HS:274-330 [scan_file_optimized]; the cache, most recently used first *)
Definition fast_file (cap : nat) (f : text * text) (c : list (text * found)) : option found * list (text * found) :=
  let '(dir, file) := f in
  match aget file c with
  | Some r => (Some r, (file, r) :: adel file c)
  | None =>
    match d_stat d file, d_text d file with
    | Some (_, size), Some t =>
      match load t with
      | Some p => let r := mkFound p file dir size in (Some r, firstn (fast_cap cap) ((file, r) :: c))
      | None => (None, c)
      end
    | _, _ => (None, c)
    end
  end.
(** HS:234-271 [process_files_parallel]: those that can be scanned, and the cache *)
Fixpoint fast_each (cap : nat) (fs : list (text * text)) (c : list (text * found)) : list found * list (text * found) :=
  match fs with
  | [] => ([], c)
  | f :: r => let '(o, c1) := fast_file cap f c in let '(rs, c2) := fast_each cap r c1 in (match o with Some x => x :: rs | None => rs end, c2)
  end.
(** HS:114-139, 179, 240, 257: packages, errors and the cache; a panic in [chunks]; waiting for one of no permits; or no end of directories *)
Inductive fast_outcome := FastDone (rs : list found) (errors : list text) (c : list (text * found)) | FastPanic | FastStuck | FastLost.
(** HS:114-139 [scan_repository_optimized], 392-414: with the size of batches, how many at a time, whether there is work stealing, and the size of the cache *)
Definition fast_scan (fuel batch permits : nat) (steal : bool) (cap : nat) (root : text) (c : list (text * found)) : fast_outcome :=
  match discover fuel [root] with
  | None => FastLost
  | Some dirs =>
    if Nat.eqb batch 0 then FastPanic
    else let fs := fast_order (fast_files dirs) in
         if Nat.eqb permits 0 && negb (is_nil fs) && negb (steal && (1000 <? length fs)%nat) then FastStuck
         else let '(rs, c') := fast_each cap fs c in FastDone rs [] c'
  end.
End Scanner.
