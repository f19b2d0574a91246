(** Model of getting packages by URI, by handle and from a repository.
    Source: crates/rez-next-python/src/package_uri_functions.rs (PU).
    Simplifications: texts are ASCII, paths are those of Unix and without dots in them; the disk does not change meanwhile; loading a file and finding the packages of a name in the repositories are functions of their argument
    and may fail; a handle is the text that is taken out of it; getting variants, which always fails, is left out. *)
From Verif Require Import Base Maps Sorting Version_model Package_model Order_model.
From Verif Require Scan_model Bind_model.
Open Scope string_scope. Open Scope list_scope.

(** PU:39, 41, 107, 335: what there is on the disk, what loads from a file, the entries of a directory, and the packages in the repositories *)
Record world := mkWorld { w_kind : text -> Scan_model.kind; w_load : text -> option package; w_list : text -> option (list text); w_find : text -> option (list package) }.
(** PU:154 [exists] *)
Definition there (w : world) (p : text) : bool := match w_kind w p with Scan_model.KNone => false | _ => true end.
(** PU:148, 153 [PathBuf::push] and [join] *)
Definition push (base part : text) : text :=
  if starts_with (T "/") part || is_nil base then part else if ends_with (T "/") base then base ++ part else base ++ "/"%char :: part.
(** PU:163 [Path::ends_with]: the last part of a path *)
Definition last_part (p : text) : text := last (filter (fun c => negb (is_nil c)) (split_on "/" p)) [].
(** PU:163 *)
Definition is_package_file (p : text) : bool := mem_text (last_part p) [T "package.py"; T "package.json"].
(** PU:154-158: load a file that is there *)
Definition load_there (w : world) (p : text) : option package := if there w p then w_load w p else None.
(** PU:39-97: the first that is something *)
Fixpoint first_some {A} (l : list (option A)) : option A := match l with [] => None | Some x :: _ => Some x | None :: r => first_some r end.
(** PU:152-159, 269-276, 291-298, 325-332: the package file in a directory *)
Definition in_dir (w : world) (p : text) : option package := first_some [load_there w (push p (T "package.py")); load_there w (push p (T "package.json"))].
(** PU:140-170 [find_package_in_path] *)
Definition find_in_path (w : world) (repo : text) (parts : list text) : option package :=
  let p := fold_left push parts repo in
  first_some [in_dir w p; if is_package_file p then load_there w p else None].
(** PU:101-116 [get_package_by_name_and_version] *)
Definition by_name_version (w : world) (n v : text) : option package :=
  match w_find w n with Some l => find (fun p => match p_version p with Some x => text_eqb (v_str x) v | None => false end) l | None => None end.
(** PU:119-137 [get_latest_package_by_name] *)
Definition latest_of (w : world) (n : text) : option package := match w_find w n with Some l => hd_error (sort_by descending l) | None => None end.
(** PU:48-49 *)
Definition uri_parts (uri : text) : list text := split_on "/" (Bind_model.drop_while (Ascii.eqb "/") uri).
(** PU:24-98 [get_package_from_uri]; the flag tells whether paths are given, whose repositories are those of the world then; the parts are taken from the end *)
Definition from_uri (w : world) (uri : text) (paths : bool) : option package :=
  let direct := if Scan_model.is_file (w_kind w uri) || ends_with (T ".py") uri || ends_with (T ".yaml") uri || ends_with (T ".json") uri then w_load w uri else None in
  let ps := rev (uri_parts uri) in
  let versioned := match ps with _ :: v :: n :: _ => by_name_version w n v | _ => None end in
  let unversioned := match ps with _ :: n :: _ => latest_of w n | _ => None end in
  let dirs := if paths then [] else
    [ match ps with f :: v :: n :: r => if existsb (Ascii.eqb "<") uri then None else find_in_path w (join (T "/") (rev r)) [n; v; f] | _ => None end;
      match ps with f :: n :: r => find_in_path w (join (T "/") (rev r)) [n; f] | _ => None end ] in
  first_some (direct :: versioned :: unversioned :: dirs).
(** PU:222-304 [get_package_from_handle] *)
Definition from_handle (w : world) (h : text) (paths : list text) : option package :=
  first_some ((if is_package_file h then load_there w h else None) :: (if Scan_model.is_dir (w_kind w h) then in_dir w h else None)
    :: flat_map (fun s => [load_there w (push s h); if Scan_model.is_dir (w_kind w (push s h)) then in_dir w (push s h) else None]) paths).
(** PU:311-348 [get_package_from_repository] *)
Definition from_repository (w : world) (uri repo : text) : option package :=
  if there w repo then
    first_some (in_dir w repo :: match w_list w repo with Some es => map (fun e => if Scan_model.is_dir (w_kind w (push repo e)) then find_in_path w (push repo e) [] else None) es | None => [] end)
  else None.
(** PU:355-385 [get_package_family_from_repository]: the name and, if the directory can be read, the versions *)
Definition family_in (w : world) (n repo : text) : option (text * option (list text)) :=
  let d := push repo n in
  if there w d then Some (n, match w_list w d with Some es => Some (filter (fun e => Scan_model.is_dir (w_kind w (push d e))) es) | None => None end) else None.
