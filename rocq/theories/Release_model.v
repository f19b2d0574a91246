(** Model of the release workflow: the release manager (crates/rez-next-build/src/release.rs), its version control
    systems (crates/rez-next-build/src/vcs) and the release command (src/cli/commands/release.rs).
    Simplifications: a disk is a map from paths to contents with a set of directories, and creating a directory also
    counts its parents as there; which operations the system refuses, what the programs git, hg, svn and python answer,
    the hash of a variant and the reading of a package file are parameters; tests, hooks of the repository and the
    recorded commit of hg change no file here; messages are constructors instead of texts. *)
From Verif Require Import Base Maps Range_model Query_model.
Open Scope string_scope.
Open Scope list_scope.

(** ** the disk *)

(** files with their contents, and directories *)
Record disk := mkDisk { d_files : list (text * text); d_dirs : list text }.
(** std::path::Path::exists *)
Definition exists_at (d : disk) (p : text) : bool := ahas p (d_files d) || mem_text p (d_dirs d).
(** a file and its content *)
Definition content (d : disk) (p : text) : option text := aget p (d_files d).
(** what the system refuses: creating a directory, writing a file *)
Record refusals := mkRefusals { no_dir : text -> bool; no_write : text -> bool }.
(** std::fs::create_dir_all *)
Definition make_dir (f : refusals) (d : disk) (p : text) : option disk :=
  if no_dir f p then None else Some (mkDisk (d_files d) (if mem_text p (d_dirs d) then d_dirs d else d_dirs d ++ [p])).
(** std::fs::write of a file in a directory, which must be there *)
Definition write_in (f : refusals) (d : disk) (dir name c : text) : option disk :=
  if mem_text dir (d_dirs d) && negb (no_write f (path_join dir name)) then Some (mkDisk (aput (path_join dir name) c (d_files d)) (d_dirs d)) else None.
(** std::fs::copy to a file in a directory; a file copied onto itself is emptied *)
Definition copy_in (f : refusals) (d : disk) (src dir name : text) : option disk :=
  match content d src with
  | None => None
  | Some c => write_in f d dir name (if text_eqb src (path_join dir name) then [] else c)
  end.

(** ** version control *)

(** vcs/mod.rs:337-361 the supported systems *)
Inductive kind := Git | Hg | Svn.
(** what the program of a repository answers, None where it fails: the changed files (git.rs:107-130, hg.rs:91-95,
    svn.rs:83-87), the patches of a queue (hg.rs:308), the metadata, whether tags can be looked up and made, the text
    behind the name in a line of hg tags, and the changelog *)
Record vcs := mkVcs { v_status : option text; v_queue : option text; v_meta : option text;
                      v_lookup : bool; v_make : bool; v_line : text -> text; v_log : option text }.
(** vcs/mod.rs:116-124 and hg.rs:299-318, svn.rs:306-315 [validate_repo_state] *)
Definition valid_state (k : kind) (v : vcs) : bool :=
  match v_status v with
  | None => false
  | Some s => is_nil s && match k, v_queue v with Hg, Some q => is_nil q | _, _ => true end
  end.
(** the tags of a repository with their messages *)
Definition tags := list (text * text).
(** git.rs:179-201, hg.rs:107-111, svn.rs:104-115 [tag_exists]; hg looks for the name anywhere in the lines *)
Definition tag_exists (k : kind) (v : vcs) (ts : tags) (t : text) : option bool :=
  if negb (v_lookup v) then None
  else Some (match k with
             | Hg => existsb (fun n => contains_text t (n ++ v_line v n)) (T "tip" :: akeys ts)
             | _ => ahas t ts
             end).
(** git.rs:203-262 (force is false), hg.rs:113-122, svn.rs:117-142 [create_tag]; svn copy to a tag that is there
    succeeds and puts the copy inside of it *)
Definition create_tag (k : kind) (v : vcs) (ts : tags) (t m : text) : option tags :=
  if negb (v_make v) then None
  else if ahas t ts then match k with Svn => Some ts | _ => None end
  else Some (aput t m ts).

(** ** the release manager *)

(** release.rs:16-23 [ReleaseMode] *)
Inductive mode := Release | Local | DryRun.
(** release.rs:27-33 [from_str] *)
Definition read_mode (s : text) : mode :=
  if text_eqb s (T "local") then Local
  else if text_eqb s (T "dry-run") || text_eqb s (T "dry_run") then DryRun
  else Release.
(** release.rs:51-56 [ReleaseManager] *)
Record manager := mkManager { m_mode : mode; m_skip_build : bool; m_skip_tests : bool; m_skip_vcs : bool }.
(** the fields of a package that a release uses *)
Record rpkg := mkRpkg { k_name : text; k_version : option text; k_variants : list (list text) }.
(** errors of a release, release.rs:166-512 *)
Inductive problem :=
| NoDefinition | Unreadable | NoName | NoVersion | NotValid | NoInstallDir | NoVariantDir (h : text)
| TestFailed (i : nat) (c : text) | TestNotRun (i : nat) (c : text) | NotTagged | NotCopied.
(** warnings of a release, release.rs:112-481 *)
Inductive note :=
| DryNote (m : text) | NoMetadata | NoVcs | ManyVariants (n : nat) | VariantNotCopied (h : text) | VariantNotDescribed (h : text)
| VariantMade (h : text) | NoVariants | BaseNotCopied | TestsSkipped | NoTests | TagThere (t : text) | TagUnknown | Tagged (t : text)
| NoChangelog | MetadataNotWritten | NoVcsNoMetadata.
(** what surrounds a release: settings of the configuration (common/src/config.rs), the environment variables HOME and
    USERPROFILE, the repositories, the reader of package files, the answer of python to the script of release.rs:575-591
    (None: no python, an error, or no list of texts), the outcome of a test command (None: not started), hashes of
    variants and what the system refuses *)
Record around := mkAround {
  o_local : text; o_release : text; o_home : option text; o_profile : option text;
  o_repo : kind -> vcs; o_load : text -> text -> option rpkg;
  o_python : option (list text); o_run : text -> option bool; o_hash : list text -> text; o_describe : list text -> text;
  o_refuse : refusals }.
(** the state of a release: the disk, the tags and the result, release.rs:38-47 *)
Record st := mkSt { s_disk : disk; s_tags : tags; s_meta : option text; s_log : option text; s_errors : list problem; s_notes : list note }.
(** a step goes on, or stops the release with an error *)
Inductive out := Go (s : st) | Stop (s : st).
(** pushing an error, a warning; replacing the disk and the tags *)
Definition err (s : st) (p : problem) : st := mkSt (s_disk s) (s_tags s) (s_meta s) (s_log s) (s_errors s ++ [p]) (s_notes s).
(** crates/rez-next-build/src/release.rs:282, 310, 327, 333 *)
Definition warn (s : st) (n : note) : st := mkSt (s_disk s) (s_tags s) (s_meta s) (s_log s) (s_errors s) (s_notes s ++ [n]).
(** crates/rez-next-build/src/release.rs:38-47: one field of the result or of the state is changed *)
Definition with_disk (s : st) (d : disk) : st := mkSt d (s_tags s) (s_meta s) (s_log s) (s_errors s) (s_notes s).
(** crates/rez-next-build/src/release.rs:38-47: one field of the result or of the state is changed *)
Definition with_tags (s : st) (t : tags) : st := mkSt (s_disk s) t (s_meta s) (s_log s) (s_errors s) (s_notes s).
(** crates/rez-next-build/src/release.rs:38-47: one field of the result or of the state is changed *)
Definition with_meta (s : st) (m : text) : st := mkSt (s_disk s) (s_tags s) (Some m) (s_log s) (s_errors s) (s_notes s).
(** crates/rez-next-build/src/release.rs:38-47: one field of the result or of the state is changed *)
Definition with_log (s : st) (l : text) : st := mkSt (s_disk s) (s_tags s) (s_meta s) (Some l) (s_errors s) (s_notes s).

Section Manager.
Context (o : around).

(** release.rs:657-669 [expand_home] *)
Definition tilde (p : text) : text :=
  match strip_prefix (T "~") p with
  | None => p
  | Some r => let h := match o_home o with Some h => h | None => match o_profile o with Some h => h | None => [] end end in
              if is_nil h then p else h ++ r
  end.
(** release.rs:204-208 the text of the version *)
Definition version_text (p : rpkg) : text := match k_version p with Some v => v | None => T "unknown" end.
(** release.rs:202-225 [get_install_path] *)
Definition install_path (m : mode) (p : rpkg) : text :=
  let base := match m with
              | Local | DryRun => tilde (o_local o)
              | Release => if negb (is_nil (o_release o)) && negb (text_eqb (o_release o) (T "~/.rez/packages/int")) then tilde (o_release o) else tilde (o_local o)
              end in
  path_join (path_join base (k_name p)) (version_text p).
(** release.rs:153-199 [load_package] *)
Definition load_package (source : text) (s : st) : rpkg * st :=
  let empty := mkRpkg [] None [] in
  let file := if exists_at (s_disk s) (path_join source (T "package.py")) then Some (path_join source (T "package.py"))
              else if exists_at (s_disk s) (path_join source (T "package.yaml")) then Some (path_join source (T "package.yaml")) else None in
  match file with
  | None => (empty, err s NoDefinition)
  | Some f => match (match content (s_disk s) f with Some c => o_load o f c | None => None end) with
              | None => (empty, err s Unreadable)
              | Some p => let s1 := if is_nil (k_name p) then err s NoName else s in
                          (p, match k_version p with None => err s1 NoVersion | Some _ => s1 end)
              end
  end.
(** vcs/mod.rs:337-361 [detect_vcs] with the feature git, which looks in the directory itself *)
Definition detect (d : disk) (source : text) : option kind :=
  if exists_at d (path_join source (T ".git")) then Some Git
  else if exists_at d (path_join source (T ".hg")) then Some Hg
  else if exists_at d (path_join source (T ".svn")) then Some Svn
  else None.
(** release.rs:228-262 [validate_vcs] *)
Definition validate_vcs (source : text) (s : st) : option kind * st :=
  match detect (s_disk s) source with
  | None => (None, warn s NoVcs)
  | Some k => if valid_state k (o_repo o k)
              then (Some k, match v_meta (o_repo o k) with Some m => with_meta s m | None => warn s NoMetadata end)
              else (None, err s NotValid)
  end.
(** release.rs:288-337 the directory of one variant *)
Definition build_variant (source target : text) (s : st) (v : list text) : st :=
  let h := o_hash o v in
  let dir := path_join target h in
  match make_dir (o_refuse o) (s_disk s) dir with
  | None => err s (NoVariantDir h)
  | Some d =>
      let s1 := with_disk s d in
      let s2 := if exists_at d (path_join source (T "package.py"))
                then match copy_in (o_refuse o) d (path_join source (T "package.py")) dir (T "package.py") with
                     | Some d' => with_disk s1 d' | None => warn s1 (VariantNotCopied h) end
                else s1 in
      let s3 := match write_in (o_refuse o) (s_disk s2) dir (T "variant.json") (o_describe o v) with
                | Some d' => with_disk s2 d' | None => warn s2 (VariantNotDescribed h) end in
      warn s3 (VariantMade h)
  end.
(** release.rs:265-357 [build_package] *)
Definition build_package (source : text) (p : rpkg) (target : text) (s : st) : out :=
  match make_dir (o_refuse o) (s_disk s) target with
  | None => Stop (err s NoInstallDir)
  | Some d =>
      let s1 := with_disk s d in
      match k_variants p with
      | [] => let s2 := warn s1 NoVariants in
              Go (if exists_at d (path_join source (T "package.py"))
                  then match copy_in (o_refuse o) d (path_join source (T "package.py")) target (T "package.py") with
                       | Some d' => with_disk s2 d' | None => warn s2 BaseNotCopied end
                  else s2)
      | vs => Go (fold_left (build_variant source target) vs (warn s1 (ManyVariants (length vs))))
      end
  end.
(** release.rs:567-632 [get_test_commands] *)
Definition test_commands (d : disk) (source : text) : list text :=
  if exists_at d (path_join source (T "package.py")) then match o_python o with Some l => l | None => [] end else [].
(** release.rs:635-653 [execute_test_command] in the install directory *)
Definition run_test (d : disk) (target c : text) : option bool := if mem_text target (d_dirs d) then o_run o c else None.
(** release.rs:539-561 the loop over the commands *)
Fixpoint run_all (target : text) (i : nat) (cs : list text) (s : st) : st :=
  match cs with
  | [] => s
  | c :: r => run_all target (S i) r (match run_test (s_disk s) target c with
                                      | Some true => s | Some false => err s (TestFailed i c) | None => err s (TestNotRun i c) end)
  end.
(** release.rs:521-564 [run_tests] *)
Definition run_tests (source target : text) (s : st) : st :=
  match test_commands (s_disk s) source with [] => warn s NoTests | cs => run_all target 1 cs s end.
(** release.rs:367-375 the name of the tag *)
Definition tag_name (p : rpkg) : text := k_name p ++ T "-" ++ version_text p.
(** release.rs:360-417 [create_vcs_tag] *)
Definition create_vcs_tag (k : kind) (p : rpkg) (message : option text) (s : st) : st :=
  let t := tag_name p in
  let put s1 := match create_tag k (o_repo o k) (s_tags s1) t (match message with Some m => m | None => T "Release " ++ t end) with
                | Some ts => warn (with_tags s1 ts) (Tagged t) | None => err s1 NotTagged end in
  match tag_exists k (o_repo o k) (s_tags s) t with
  | Some true => warn s (TagThere t)
  | Some false => put s
  | None => put (warn s TagUnknown)
  end.
(** release.rs:420-437 [generate_changelog] *)
Definition generate_changelog (k : kind) (s : st) : st := match v_log (o_repo o k) with Some l => with_log s l | None => warn s NoChangelog end.
(** release.rs:440-484 [write_release_metadata] *)
Definition write_metadata (k : option kind) (target : text) (s : st) : st :=
  match k with
  | None => warn s NoVcsNoMetadata
  | Some k => match v_meta (o_repo o k) with
              | None => warn s NoMetadata
              | Some m => match write_in (o_refuse o) (s_disk s) target (T "vcs_metadata.json") m with
                          | Some d => with_meta (with_disk s d) m
                          | None => warn s MetadataNotWritten
                          end
              end
  end.
(** release.rs:487-517 [install_package_definition] *)
Definition install_definition (source target : text) (s : st) : out :=
  let name := if exists_at (s_disk s) (path_join source (T "package.py")) then Some (T "package.py")
              else if exists_at (s_disk s) (path_join source (T "package.yaml")) then Some (T "package.yaml") else None in
  match name with
  | None => Go s
  | Some n => match copy_in (o_refuse o) (s_disk s) (path_join source n) target n with
              | Some d => Go (with_disk s d)
              | None => Stop (err s NotCopied)
              end
  end.
(** the outcome of a release: the returned error with what was done so far, or a result with its flag of success *)
Inductive outcome := Failed (s : st) | Done (success : bool) (path : text) (s : st).
(** release.rs:84-150 [release] from the state of disk and tags *)
Definition release (m : manager) (source : text) (message : option text) (d : disk) (ts : tags) : outcome :=
  let s0 := mkSt d ts None None [] [] in
  let (p, s1) := load_package source s0 in
  if negb (is_nil (s_errors s1)) then Done false [] s1
  else
    let target := install_path (m_mode m) p in
    let (k, s2) := if m_skip_vcs m then (None, s1) else validate_vcs source s1 in
    match m_mode m with
    | DryRun => Done true (T "[dry-run] " ++ target) (match message with Some t => warn s2 (DryNote t) | None => s2 end)
    | _ =>
      match (if m_skip_build m then Go s2 else build_package source p target s2) with
      | Stop s3 => Failed s3
      | Go s3 =>
        let s4 := if m_skip_tests m then warn s3 TestsSkipped else run_tests source target s3 in
        let s5 := match k with Some k => create_vcs_tag k p message s4 | None => s4 end in
        let s6 := match k with Some k => generate_changelog k s5 | None => s5 end in
        let s7 := write_metadata k target s6 in
        match install_definition source target s7 with
        | Stop s8 => Failed s8
        | Go s8 => Done (is_nil (s_errors s8)) target s8
        end
      end
    end.
End Manager.

(** ** the release command *)

(** src/cli/commands/release.rs:19-63 [ReleaseArgs], the fields that are used *)
Record rargs := mkRargs { a_vcs : option text; a_skip_errors : bool; a_ignore_tag : bool; a_dry : bool; a_variants : option text;
                          a_message : option text; a_file : option text }.
(** what the command meets: the package (None where package.py is missing or cannot be read), which markers of
    repositories are in the directory, the exit code and output of git status (None: git is not started), whether git tag and git push are
    started and succeed, whether git tag -d succeeds, which builds succeed, and the content of the message file *)
Inductive push := PushOk | PushRejected | PushNotStarted.
(** src/cli/commands/release.rs:19-63: with these arguments the command meets the following *)
Record meets := mkMeets { e_package : option rpkg; e_marks : kind -> bool; e_status : option (bool * text); e_tag_ok : bool; e_push : push; e_delete_ok : bool;
                          e_build : option nat -> bool; e_file : text -> option text }.
(** the installed builds, the tags here and those at the origin *)
Record repos := mkRepos { r_installed : list (option nat); r_tags : tags; r_origin : tags }.
(** why the command fails *)
Inductive trouble := NoPackage | OtherVcs | GitNotStarted | Uncommitted | TagExists | BadVariants | BuildFailed (i : option nat) | TagFailed | PushFailed.
(** release.rs:230-240 [detect_vcs] *)
Definition detect_cli (marks : kind -> bool) : text :=
  if marks Git then T "git" else if marks Svn then T "svn" else if marks Hg then T "hg" else T "unknown".
(** release.rs:207-223 one index after the other *)
Fixpoint read_indices (count : nat) (values : list text) (done : list (option nat)) : option (list (option nat)) :=
  match values with
  | [] => Some done
  | v :: r => match parse_u64 v with
              | None => None
              | Some n => if (N.of_nat count <=? n)%N then None
                          else let i := Some (N.to_nat n) in
                               read_indices count r (if existsb (fun j => match j, i with Some a, Some b => Nat.eqb a b | None, None => true | _, _ => false end) done then done else done ++ [i])
              end
  end.
(** release.rs:184-227 [release_variant_indices] *)
Definition variant_indices (p : rpkg) (selected : option text) : option (list (option nat)) :=
  match k_variants p with
  | [] => match selected with
          | Some s => if is_nil (trim s) then Some [None] else None
          | None => Some [None]
          end
  | vs => match selected with
          | None => Some (map Some (seq 0 (length vs)))
          | Some s => match read_indices (length vs) (filter (fun t => negb (is_nil t)) (map trim (split_on ","%char s))) [] with
                      | Some [] => None
                      | other => other
                      end
          end
  end.
(** release.rs:135-164 the builds, each installed when it succeeds *)
Fixpoint build_all (e : meets) (is : list (option nat)) (w : repos) : option trouble * repos :=
  match is with
  | [] => (None, w)
  | i :: r => if e_build e i then build_all e r (mkRepos (r_installed w ++ [i]) (r_tags w) (r_origin w)) else (Some (BuildFailed i), w)
  end.
(** release.rs:312-360 [create_git_tag]; git refuses to make a tag that is there *)
Definition create_git_tag (e : meets) (t m : text) (w : repos) : option trouble * repos :=
  if negb (e_tag_ok e) || ahas t (r_tags w) then (Some TagFailed, w)
  else let made := mkRepos (r_installed w) (aput t m (r_tags w)) (r_origin w) in
       match e_push e with
       | PushOk => (None, mkRepos (r_installed made) (r_tags made) (aput t m (r_origin made)))
       | _ => (Some PushFailed, if e_delete_ok e then mkRepos (r_installed made) (adel t (r_tags made)) (r_origin made) else made)
       end.
(** release.rs:66-182 [execute] *)
Definition release_command (a : rargs) (e : meets) (w : repos) : option trouble * repos :=
  match e_package e with
  | None => (Some NoPackage, w)
  | Some p =>
    let vcs := match a_vcs a with Some v => v | None => detect_cli (e_marks e) end in
    if negb (text_eqb vcs (T "git")) then (Some OtherVcs, w)
    else
      let state := if a_skip_errors a then None
                   else match e_status e with None => Some GitNotStarted | Some (_, s) => if is_nil s then None else Some Uncommitted end in
      match state with
      | Some t => (Some t, w)
      | None =>
        let tag := tag_name p in
        if negb (a_ignore_tag a) && ahas tag (r_tags w) then (Some TagExists, w)
        else if a_dry a then (None, w)
        else match variant_indices p (a_variants a) with
             | None => (Some BadVariants, w)
             | Some is =>
               match build_all e is w with
               | (Some t, w1) => (Some t, w1)
               | (None, w1) =>
                 let message := match a_message a with Some m => m
                                | None => match (match a_file a with Some f => e_file e f | None => None end) with Some m => m | None => T "Release " ++ tag end end in
                 create_git_tag e tag message w1
               end
             end
      end
  end.
