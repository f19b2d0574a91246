(** Model of the command that replaces the program by a released one.
    Source: src/cli/commands/self_update.rs (SU).
    Simplifications: the system is Unix and not Windows; texts and files are ASCII; the disk is a finite tree whose links are not followed; what a server answers is a function of the
    address, the sum and the files of an archive are functions of its bytes; calls of the operating system fail only if a parent is not a directory or a directory is in the way, but renaming
    may be refused; permissions are left out; where the system would refuse to remove a directory after all in it is removed, it is removed; printing is left out. *)
From Verif Require Import Base Maps Range_model Files_model.
From Verif Require Bundle_model Try_model Bind_model.
Open Scope string_scope. Open Scope list_scope.

(** SU:56-57, 86, 94, 109-125, 130-163, 190, 269, 295, 358: the system: its names, what ldd prints, the release file, which programs answer, what servers answer, sums and files of archives,
    the program itself, whether a file can be renamed, the version of the program and the directory for temporary files *)
Record world := mkWorld {
  u_os : text; u_arch : text; u_ldd : option (text * text); u_release : option text; u_has : text -> bool; u_get : text -> option text;
  u_sha : text -> text; u_untar : text -> option (list (path * text)); u_exe : option path; u_rename : path -> path -> bool; u_current : text; u_tmp : path }.
(** SU:20-37 [SelfUpdateArgs] *)
Record args := mkArgs { a_version : option text; a_check : bool; a_force : bool }.

(** ** Names *)
(** SU:84-105 [detect_linux_libc]; character 34 is the double quote *)
Definition libc (w : world) : text :=
  if match u_ldd w with Some (out, err) => contains_text (T "musl") (map to_lower err) || contains_text (T "musl") (map to_lower out) | None => false end then T "musl"
  else if match u_release w with
          | Some c => existsb (fun l => starts_with (T "ID=") l && mem_text (Bind_model.drop_both "034" (Bind_model.drop_prefixes (length l) (T "ID=") l)) [T "alpine"; T "void"]) (Bundle_model.file_lines c)
          | None => false
          end then T "musl"
  else T "gnu".
(** SU:55-82 [detect_target] *)
Definition target (w : world) : option text :=
  if mem_text (u_arch w) [T "x86_64"; T "aarch64"] then
    if text_eqb (u_os w) (T "linux") then Some (u_arch w ++ T "-unknown-linux-" ++ libc w)
    else if text_eqb (u_os w) (T "macos") then Some (u_arch w ++ T "-apple-darwin") else None
  else None.
(** SU:177, 302 [trim_start_matches] *)
Definition strip_v (s : text) : text := Bind_model.drop_while (Ascii.eqb "v") s.
(** SU:174 *)
Definition tag_edge (c : ascii) : bool := Ascii.eqb c "034" || Ascii.eqb c "," || Ascii.eqb c " ".
(** SU:169, 166-178 [parse_tag_name]: the first line with the key *)
Definition tag_key : text := "034"%char :: T "tag_name" ++ ["034"%char].
(** SU:166-178 *)
Definition tag_name (json : text) : option text :=
  match filter (contains_text tag_key) (Bundle_model.file_lines json) with
  | l :: _ => match find_char ":" l with Some (_, r) => Some (strip_v (Bind_model.drop_end tag_edge (Bind_model.drop_while tag_edge (trim r)))) | None => None end
  | [] => None
  end.
(** SU:181 *)
Definition latest_url : text := T "https://api.github.com/repos/loonghao/rez-next/releases/latest".
(** SU:180-186 [fetch_latest_version] *)
Definition latest (w : world) : option text := match u_get w latest_url with Some b => tag_name b | None => None end.
(** SU:352-355, 372-375 *)
Definition release_url (v f : text) : text := T "https://github.com/loonghao/rez-next/releases/download/v" ++ v ++ T "/" ++ f.
(** SU:349 *)
Definition archive_name (t : text) : text := T "rez-next-" ++ t ++ T ".tar.gz".
(** SU:376 *)
Definition sums_name : text := T "checksums-sha256.txt".

(** ** Sums *)
(** SU:442 [is_ascii_hexdigit] *)
Definition is_hex (c : ascii) : bool := is_digit c || ((97 <=? code (to_lower c))%N && (code (to_lower c) <=? 102)%N).
(** SU:428-454 [checksum_for_asset]: the sum, or an error *)
Fixpoint sum_in (name : text) (ls : list text) : option text :=
  match ls with
  | [] => None
  | l :: r =>
    match Try_model.split_ws l with
    | h :: f :: more => if text_eqb f name then if negb (is_nil more) || negb (length h =? 64)%nat || negb (forallb is_hex h) then None else Some (map to_lower h) else sum_in name r
    | _ => sum_in name r
    end
  end.
(** SU:428-454 *)
Definition sum_for (sums name : text) : option text := sum_in name (Bundle_model.file_lines sums).

(** ** The disk *)
(** SU:359 [create_dir_all] with the parts of a path: where it leads, if that worked *)
Fixpoint enter (here : path) (cs : list text) (x : node) : option path * node :=
  match cs with
  | [] => (Some here, x)
  | c :: r =>
    if is_nil c || text_eqb c (T ".") then enter here r x
    else if text_eqb c (T "..") then enter (removelast here) r x
    else match Bind_model.make_dirs (here ++ [c]) x with None => (None, x) | Some x' => enter (here ++ [c]) r x' end
  end.
(** SU:364, 422 [remove_dir_all] *)
Definition gone (p : path) (x : node) : node := match p with [] => Dir [] | _ => del p x end.
(** SU:194-227 [extract_archive]: the files of the archive one after another *)
Fixpoint unpack (dir : path) (fs : list (path * text)) (x : node) : bool * node :=
  match fs with
  | [] => (true, x)
  | (p, c) :: r => match Bind_model.write_file (dir ++ p) c x with Some x' => unpack dir r x' | None => (false, x) end
  end.
(** SU:245-258 [walkdir] *)
Fixpoint walk (p : path) (y : node) : list path :=
  match y with
  | Dir es => (fix each (l : list (text * node)) : list path :=
                 match l with [] => [] | (c, z) :: r => (match z with Dir _ => walk (p ++ [c]) z | _ => [p ++ [c]] end) ++ each r end) es
  | _ => []
  end.
(** SU:231, 237 *)
Definition is_binary (p : path) : bool := mem_text (last p []) [T "rez-next"; T "rez-next.exe"].
(** SU:230-242 [find_binary_in_dir] *)
Definition find_binary (dir : path) (x : node) : option path := match get dir x with Some y => find is_binary (walk dir y) | None => None end.
(** SU:262-270 [replace_binary] *)
Definition replace (w : world) (src exe : path) (x : node) : option node :=
  match get src x with Some y => if u_rename w src exe && negb (is_dir exe x) then put exe y (del src x) else None | None => None end.

(** ** The command *)
(** SU:294-426: why it failed *)
Inductive reason := NoDownloader | NoLatest | NoTarget | NoTemp | NoArchive | NoSums | NoEntry | Mismatch | NotExtracted | NoBinary | NoSelf | NotReplaced.
(** SU:294-426: what it says *)
Inductive answer := UpToDate | Available (v : text) | Already | Updated (v : text) | Failed (r : reason).
(** SU:358: the parts of the path of the temporary directory below that for temporary files *)
Definition temp_parts (v : text) : list text := split_on "/" (T "rez-next-update-" ++ v).
(** SU:301-306 *)
Definition wanted (w : world) (a : args) : option text := match a_version a with Some v => Some (strip_v v) | None => latest w end.
(** SU:402-425: from the archive on, which is in the directory *)
Definition install (w : world) (v : text) (dir : path) (body : text) (x : node) : answer * node :=
  match u_untar w body with
  | None => (Failed NotExtracted, gone dir x)
  | Some fs =>
    match unpack dir fs x with
    | (false, x) => (Failed NotExtracted, gone dir x)
    | (true, x) =>
      match find_binary dir x with
      | None => (Failed NoBinary, gone dir x)
      | Some src =>
        match u_exe w with
        | None => (Failed NoSelf, x)
        | Some exe => match replace w src exe x with None => (Failed NotReplaced, x) | Some x => (Updated v, gone dir x) end
        end
      end
    end
  end.
(** SU:360-400: in the temporary directory *)
Definition fetch (w : world) (v t : text) (dir : path) (x : node) : answer * node :=
  match u_get w (release_url v (archive_name t)) with
  | None => (Failed NoArchive, gone dir x)
  | Some body =>
    match Bind_model.write_file (dir ++ [archive_name t]) body x with
    | None => (Failed NoArchive, gone dir x)
    | Some x =>
      match u_get w (release_url v sums_name) with
      | None => (Failed NoSums, gone dir x)
      | Some sums =>
        match Bind_model.write_file (dir ++ [sums_name]) sums x with
        | None => (Failed NoSums, gone dir x)
        | Some x =>
          match sum_for sums (archive_name t) with
          | None => (Failed NoEntry, gone dir x)
          | Some h => if text_eqb (u_sha w body) h then install w v dir body x else (Failed Mismatch, gone dir x)
          end
        end
      end
    end
  end.
(** SU:294-426 [execute] *)
Definition execute (w : world) (a : args) (x : node) : answer * node :=
  if u_has w (T "curl") || u_has w (T "wget") then
    match wanted w a with
    | None => (Failed NoLatest, x)
    | Some v =>
      if a_check a then (if text_eqb v (u_current w) then UpToDate else Available v, x)
      else if text_eqb v (u_current w) && negb (a_force a) then (Already, x)
      else match target w with
           | None => (Failed NoTarget, x)
           | Some t => match enter (u_tmp w) (temp_parts v) x with (None, x) => (Failed NoTemp, x) | (Some dir, x) => fetch w v t dir x end
           end
    end
  else (Failed NoDownloader, x).
