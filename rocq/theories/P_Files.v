(** C113-C116: copying, moving and removing packages on disk. *)
From Verif Require Import Base Base_lemmas Maps Files_model Files_spec Files_proofs.
Open Scope string_scope. Open Scope list_scope.

(** ** A disk: two repositories, with two versions of maya in the first and one of nuke in the second *)
Definition file (s : string) : node := File (T s).
Definition dir (l : list (string * node)) : node := Dir (map (fun e => (T (fst e), snd e)) l).
Definition at_ (l : list string) : path := map T l.
Definition maya_tree : node := dir [("package.py", file "name"); ("bin", dir [("maya", file "run"); ("m", Link (T "maya")); ("pipe", Special)])].
Definition disk : node := dir [("a", dir [("maya", dir [("1.0", maya_tree); ("2.0", dir [("package.py", file "two")])])]); ("b", dir [("nuke", dir [("5", dir [])])])].
Definition out {A} (r : res A) : node := match r with Good _ x _ | Bad x => x | Stuck => Special end.
Ltac is_apart := split; intros [r' E']; vm_compute in E'; discriminate E'.
Lemma disk_located : located (T "maya") (T "1.0") [at_ ["a"]; at_ ["b"]] disk (at_ ["a"; "maya"; "1.0"]).
Proof. apply find_located. reflexivity. Qed.

(** ** C113: a copy is a copy *)
(** a copy onto the package itself removes the package and reports success; the command too *)
Theorem C113_refuted : ~ (forall name version base bases force x r x' n', (exists a, get (co_source r) x = Some a /\ tidy a) -> copy_package never name version base bases force x 0 = Good r x' n' ->
  forall a, get (co_source r) x = Some a -> exists b, get (co_dest r) x' = Some b /\ same_tree a b).
Proof.
  intros H. specialize (H (T "maya") (T "1.0") (at_ ["a"]) [at_ ["a"]] true disk (mkCopied (at_ ["a"; "maya"; "1.0"]) (at_ ["a"; "maya"; "1.0"]) 0 0) (out (copy_package never (T "maya") (T "1.0") (at_ ["a"]) [at_ ["a"]] true disk 0)) 2).
  destruct (H ltac:(exists maya_tree; split; [reflexivity|cbn; repeat constructor; cbn; intuition discriminate]) ltac:(vm_compute; reflexivity) maya_tree ltac:(reflexivity)) as (b & G & S).
  vm_compute in G. injection G as <-. specialize (S (at_ ["package.py"])). vm_compute in S. discriminate.
Qed.
Theorem C113_command_refuted : exists x src, dir_at src x /\ seen (src ++ at_ ["package.py"]) x <> None /\
  exists x' n', cp_directory never src src true x 0 = Good tt x' n' /\ seen (src ++ at_ ["package.py"]) x' = None.
Proof.
  exists disk, (at_ ["a"; "maya"; "1.0"]). split; [eexists; reflexivity|]. split; [intros E; vm_compute in E; discriminate E|]. exists (out (cp_directory never (at_ ["a"; "maya"; "1.0"]) (at_ ["a"; "maya"; "1.0"]) true disk 0)), 2. split; vm_compute; reflexivity.
Qed.
(** whatever calls of the operating system fail: when a copy to another place is reported, the place holds all files and links of the source and nothing else,
    the counts are right, and nothing that is apart from the place has changed *)
Theorem C113_copy_partial : forall io name version base bases force x n r x' n' src,
  located name version bases x src -> src <> vdir name version base -> (forall a, get src x = Some a -> tidy a) -> copy_package io name version base bases force x n = Good r x' n' ->
  apart src (vdir name version base) /\ only_at (vdir name version base) x x' /\
  exists a b, get src x = Some a /\ get (vdir name version base) x' = Some b /\ same_tree a b /\ r = mkCopied src (vdir name version base) (count_files a) (count_bytes a).
Proof. exact copy_good. Qed.
Theorem C113_command_partial : forall io src dest force x n x' n' a, dest <> [] -> src <> dest -> get src x = Some a -> is_dir src x = true -> tidy a -> cp_directory io src dest force x n = Good tt x' n' ->
  apart src dest /\ only_at dest x x' /\ exists b, get dest x' = Some b /\ same_tree a b.
Proof. exact cp_directory_good. Qed.
(** the package is taken from the first path that has it *)
Theorem C113_source : forall name version bases x p, find_package_dir name version bases x = Some p <-> located name version bases x p.
Proof. exact find_located. Qed.
Print Assumptions C113_refuted.
Print Assumptions C113_command_refuted.
Print Assumptions C113_copy_partial.
Print Assumptions C113_command_partial.
Print Assumptions C113_source.
Example C113_example :
  let r := copy_package never (T "maya") (T "1.0") (at_ ["c"]) [at_ ["a"]; at_ ["b"]] false disk 0 in
  r = Good (mkCopied (at_ ["a"; "maya"; "1.0"]) (at_ ["c"; "maya"; "1.0"]) 3 7) (out r) 5 /\
  seen (at_ ["c"; "maya"; "1.0"; "bin"; "m"]) (out r) = Some (KLink (T "maya")) /\ seen (at_ ["c"; "maya"; "1.0"; "bin"; "pipe"]) (out r) = None /\ seen (at_ ["a"; "maya"; "1.0"; "bin"; "pipe"]) (out r) = Some KSpecial.
Proof. vm_compute. repeat split; reflexivity. Qed.

(** ** C114: a copy that fails does no harm *)
Definition fails_at (k : nat) (j : option node) (n : nat) : option (option node) := if Nat.eqb n k then Some j else None.
(** a copy that fails in the middle leaves a part of the package at its place, and with force the old package is lost *)
Theorem C114_refuted : exists io name version base bases x x', copy_package io name version base bases false x 0 = Bad x' /\ get (vdir name version base) x = None /\
  dir_at (vdir name version base) x' /\ seen (vdir name version base ++ at_ ["package.py"]) x' <> None /\ seen (vdir name version base ++ at_ ["bin"; "maya"]) x' = None.
Proof.
  exists (fails_at 3 None), (T "maya"), (T "1.0"), (at_ ["c"]), [at_ ["a"]], disk, (out (copy_package (fails_at 3 None) (T "maya") (T "1.0") (at_ ["c"]) [at_ ["a"]] false disk 0)).
  split; [vm_compute; reflexivity|]. split; [reflexivity|]. split; [eexists; vm_compute; reflexivity|]. split; [intros E; vm_compute in E; discriminate E|vm_compute; reflexivity].
Qed.
Theorem C114_overwrite_refuted : exists io name version base bases x x' y, copy_package io name version base bases true x 0 = Bad x' /\ get (vdir name version base) x = Some y /\ get (vdir name version base) x' = None.
Proof.
  exists (fails_at 1 None), (T "maya"), (T "1.0"), (at_ ["b"]), [at_ ["a"]; at_ ["b"]], (dir [("a", dir [("maya", dir [("1.0", maya_tree)])]); ("b", dir [("maya", dir [("1.0", maya_tree)])])]).
  eexists. exists maya_tree. split; [vm_compute; reflexivity|]. split; vm_compute; reflexivity.
Qed.
(** with force, a package whose source is below the place of the copy is removed, and the copy fails without any failing call *)
Theorem C114_nested_refuted : exists name version base bases x x' src, located name version bases x src /\ copy_package never name version base bases true x 0 = Bad x' /\ get src x' = None.
Proof.
  exists (T "m"), (T "1"), [], [at_ ["m"; "1"]], (dir [("m", dir [("1", dir [("m", dir [("1", maya_tree)])])])]). eexists. exists (at_ ["m"; "1"; "m"; "1"]).
  split; [apply find_located; reflexivity|]. split; vm_compute; reflexivity.
Qed.
(** whatever calls fail, everything that is apart from the place of the copy stays, and so does the source when it is apart from it *)
Theorem C114_apart_partial : forall io name version base bases force x n q, apart (vdir name version base) q ->
  match copy_package io name version base bases force x n with Good _ x' _ | Bad x' => get q x' = get q x | Stuck => True end.
Proof. intros io name version base bases force x n q A. pose proof (copy_keeps io name version base bases force x n q A) as K. destruct (copy_package _ _ _ _ _ _ _ _); [apply K; reflexivity|apply K; reflexivity|exact I]. Qed.
(** without force an existing package is never touched *)
Theorem C114_refuses : forall io name version base bases x n, get (vdir name version base) x <> None -> copy_package io name version base bases false x n = Bad x.
Proof. exact copy_refuses. Qed.
Print Assumptions C114_refuted.
Print Assumptions C114_overwrite_refuted.
Print Assumptions C114_nested_refuted.
Print Assumptions C114_apart_partial.
Print Assumptions C114_refuses.
Example C114_example : apart (vdir (T "maya") (T "1.0") (at_ ["c"])) (at_ ["a"; "maya"; "1.0"]) /\
  get (at_ ["a"; "maya"; "1.0"]) (out (copy_package (fails_at 3 (Some Special)) (T "maya") (T "1.0") (at_ ["c"]) [at_ ["a"]] false disk 0)) = Some maya_tree /\
  copy_package never (T "maya") (T "1.0") (at_ ["a"]) [at_ ["a"]] false disk 0 = Bad disk.
Proof. split; [is_apart|]. split; vm_compute; reflexivity. Qed.

(** ** C115: a move keeps the package *)
(** when the destination is among the paths the moved package is removed too, and success is reported *)
Theorem C115_refuted : exists name version base bases x src a r x' n', located name version bases x src /\ get src x = Some a /\ src <> vdir name version base /\
  move_package never 0 name version base bases false false x 0 = Good (r, true) x' n' /\ get src x' = None /\ get (vdir name version base) x' = None.
Proof.
  exists (T "maya"), (T "1.0"), (at_ ["b"]), [at_ ["a"]; at_ ["b"]], disk, (at_ ["a"; "maya"; "1.0"]), maya_tree. eexists. eexists. eexists.
  split; [exact disk_located|]. split; [reflexivity|]. split; [intros E; vm_compute in E; discriminate E|]. split; [vm_compute; reflexivity|]. split; vm_compute; reflexivity.
Qed.
(** a package in the other layout stays where it was although its removal is reported *)
Theorem C115_layout_refuted : exists name version base bases x src r x' n', located name version bases x src /\ (forall b, In b bases -> apart (vdir name version base) b) /\
  move_package never 0 name version base bases false false x 0 = Good (r, true) x' n' /\ get src x' = get src x.
Proof.
  exists (T "maya"), (T "1.0"), (at_ ["c"]), [at_ ["a"]], (dir [("a", dir [("maya", dir [("maya-1.0", maya_tree)])])]), (at_ ["a"; "maya"; "maya-1.0"]). eexists. eexists. eexists.
  split; [apply find_located; reflexivity|]. split; [intros b [<-|[]]; is_apart|]. split; vm_compute; reflexivity.
Qed.
(** copies on other paths are removed as well *)
Theorem C115_others_refuted : exists name version base bases x src q r x' n', located name version bases x src /\ apart src q /\ apart (vdir name version base) q /\ get q x <> None /\
  move_package never 0 name version base bases false false x 0 = Good (r, true) x' n' /\ get q x' = None.
Proof.
  exists (T "maya"), (T "1.0"), (at_ ["c"]), [at_ ["a"]; at_ ["b"]], (dir [("a", dir [("maya", dir [("1.0", maya_tree)])]); ("b", dir [("maya", dir [("1.0", dir [])])])]), (at_ ["a"; "maya"; "1.0"]), (at_ ["b"; "maya"; "1.0"]). eexists. eexists. eexists.
  split; [apply find_located; reflexivity|]. split; [is_apart|]. split; [is_apart|]. split; [intros E; vm_compute in E; discriminate E|]. split; vm_compute; reflexivity.
Qed.
(** the command with force on the place where the package is destroys it and reports success *)
Theorem C115_command_refuted : exists x src a x' n', get src x = Some a /\ mv_directory never src src true false x 0 = Good tt x' n' /\ get src x' = None.
Proof. exists disk, (at_ ["a"; "maya"; "1.0"]), maya_tree. eexists. eexists. split; [reflexivity|]. split; vm_compute; reflexivity. Qed.
(** whatever calls fail: when the destination is apart from the version directories of all paths and the package is in the usual layout, a reported move has
    the package at the destination, and no path has it any more; only these places have changed *)
Theorem C115_move_partial : forall io dlen name version base bases force x n r flag x' n' b0,
  located name version bases x (vdir name version b0) -> In b0 bases -> (forall b, In b bases -> apart (vdir name version base) (vdir name version b)) -> (forall a, get (vdir name version b0) x = Some a -> tidy a) ->
  move_package io dlen name version base bases force false x n = Good (r, flag) x' n' ->
  flag = true /\ only_among (vdir name version base :: map (vdir name version) bases) x x' /\ (forall b, In b bases -> ~ dir_at (vdir name version b) x') /\
  exists a b, get (vdir name version b0) x = Some a /\ get (vdir name version base) x' = Some b /\ same_tree a b /\ r = mkCopied (vdir name version b0) (vdir name version base) (count_files a) (count_bytes a).
Proof. exact move_good. Qed.
(** a move that keeps the source is a copy *)
Theorem C115_keep : forall io dlen name version base bases force x n r flag x' n', move_package io dlen name version base bases force true x n = Good (r, flag) x' n' ->
  flag = false /\ copy_package io name version base bases force x n = Good r x' n'.
Proof. exact move_keep_good. Qed.
(** a move to where the package is is refused, and nothing changes *)
Theorem C115_same : forall io dlen name version base bases force keep x n, located name version bases x (vdir name version base) -> move_package io dlen name version base bases force keep x n = Bad x.
Proof. exact move_same. Qed.
Theorem C115_command_partial : forall io src dest force x n x' n' a, dest <> [] -> src <> [] -> src <> dest -> get src x = Some a -> is_dir src x = true -> tidy a -> mv_directory io src dest force false x n = Good tt x' n' ->
  apart src dest /\ only_among [src; dest] x x' /\ get src x' = None /\ exists b, get dest x' = Some b /\ same_tree a b.
Proof. exact mv_directory_good. Qed.
Print Assumptions C115_refuted.
Print Assumptions C115_layout_refuted.
Print Assumptions C115_others_refuted.
Print Assumptions C115_command_refuted.
Print Assumptions C115_move_partial.
Print Assumptions C115_keep.
Print Assumptions C115_same.
Print Assumptions C115_command_partial.
Example C115_example : let r := move_package never 0 (T "maya") (T "1.0") (at_ ["c"]) [at_ ["a"]; at_ ["b"]] false false disk 0 in
  r = Good (mkCopied (at_ ["a"; "maya"; "1.0"]) (at_ ["c"; "maya"; "1.0"]) 3 7, true) (out r) 6 /\ get (at_ ["a"; "maya"; "1.0"]) (out r) = None /\ seen (at_ ["a"; "maya"; "2.0"; "package.py"]) (out r) = Some (KFile (T "two")) /\
  seen (at_ ["c"; "maya"; "1.0"; "bin"; "maya"]) (out r) = Some (KFile (T "run")) /\ (forall b, In b [at_ ["a"]; at_ ["b"]] -> apart (vdir (T "maya") (T "1.0") (at_ ["c"])) (vdir (T "maya") (T "1.0") b)).
Proof. split; [vm_compute; reflexivity|]. split; [vm_compute; reflexivity|]. split; [vm_compute; reflexivity|]. split; [vm_compute; reflexivity|]. intros b [<-|[<-|[]]]; is_apart. Qed.

(** ** C116: a removal removes the version and nothing else *)
(** the setting that is documented as a dry run removes the package *)
Theorem C116_refuted : exists name version bases x p r x' n', get p x <> None /\ remove_package_version never 0 name version bases false true x 0 = Good r x' n' /\ get p x' = None.
Proof. exists (T "maya"), (T "1.0"), [at_ ["a"]], disk, (at_ ["a"; "maya"; "1.0"]). eexists. eexists. eexists. split; [intros E; vm_compute in E; discriminate E|]. split; vm_compute; reflexivity. Qed.
(** the freed bytes do not include what is in directories *)
Theorem C116_bytes_refuted : exists name version bases x r x' n', scattered bases /\ remove_package_version never 0 name version bases true true x 0 = Good r x' n' /\ rm_bytes r < total (rm_paths r) x.
Proof. exists (T "maya"), (T "1.0"), [at_ ["a"]], disk. eexists. eexists. eexists. split; [repeat constructor|]. split; [vm_compute; reflexivity|vm_compute; repeat constructor]. Qed.
(** the preview lists plain files, which are not removed *)
Theorem C116_preview_refuted : exists name version bases x r x' n', scattered bases /\ remove_package_version never 0 name version bases true true x 0 = Good r x' n' /\ rm_paths r <> preview_removal name (Some version) bases x.
Proof. exists (T "maya"), (T "1.0"), [at_ ["a"]], (dir [("a", dir [("maya", dir [("1.0", file "x")])])]). eexists. eexists. eexists. split; [repeat constructor|]. split; [vm_compute; reflexivity|]. intros E; vm_compute in E; discriminate E. Qed.
(** a reported removal: no path has the version any more, nothing has appeared, and everything apart from the version directories is as before *)
Theorem C116_only : forall io dlen name version bases force pe x n r x' n', remove_package_version io dlen name version bases force pe x n = Good r x' n' ->
  only_among (map (vdir name version) bases) x x' /\ (forall q, get q x = None -> get q x' = None) /\ (forall b, In b bases -> ~ dir_at (vdir name version b) x').
Proof. exact remove_version_good. Qed.
(** the paths and the count are those of the version directories that were there; no empty family is left *)
Theorem C116_report : forall io dlen name version bases force pe x n r x' n', scattered bases -> remove_package_version io dlen name version bases force pe x n = Good r x' n' ->
  rm_paths r = filter (fun p => is_dir p x) (map (vdir name version) bases) /\ rm_count r = length (rm_paths r).
Proof. exact remove_exact. Qed.
Theorem C116_families : forall io dlen name version bases force x n r x' n', scattered bases -> remove_package_version io dlen name version bases force true x n = Good r x' n' -> rm_count r <> 0 ->
  forall b, In b bases -> get (b ++ [name]) x' <> Some (Dir []).
Proof. exact remove_pruned. Qed.
Theorem C116_absent : forall io dlen name version bases force pe x n, (forall b, In b bases -> ~ dir_at (vdir name version b) x) -> remove_package_version io dlen name version bases force pe x n = Good (mkRemoved [] 0 0) x n.
Proof. exact remove_none. Qed.
(** the preview tells what is removed when only directories are at the places *)
Theorem C116_preview_partial : forall io dlen name version bases force pe x n r x' n', scattered bases -> (forall b, In b bases -> get (vdir name version b) x = None \/ dir_at (vdir name version b) x) ->
  remove_package_version io dlen name version bases force pe x n = Good r x' n' -> rm_paths r = preview_removal name (Some version) bases x.
Proof. exact preview_removed. Qed.
(** the bytes are right when there are only files and no directories in the version directories *)
Theorem C116_bytes_partial : forall io dlen name version bases force pe x n r x' n', scattered bases -> (forall b y, In b bases -> get (vdir name version b) x = Some y -> flat y) ->
  remove_package_version io dlen name version bases force pe x n = Good r x' n' -> rm_bytes r = total (rm_paths r) x.
Proof. exact remove_bytes. Qed.
(** removing whole families *)
Theorem C116_family : forall io name bases x n r x' n', remove_package_family io name bases x n = Good r x' n' ->
  only_among (map (fun b => b ++ [name]) bases) x x' /\ (forall b, In b bases -> ~ dir_at (b ++ [name]) x').
Proof.
  intros io name bases x n r x' n' H. unfold remove_package_family in H. apply bind_good in H. destruct H as (acc & x1 & n1 & R & H). injection H as _ <- _. destruct (remove_families_good _ _ _ _ _ _ _ _ _ R) as (A & _ & B). now split.
Qed.
Theorem C116_size_partial : forall es, linkless (Dir es) -> dir_size (Dir es) = count_bytes (Dir es).
Proof. intros es L. exact (dir_size_bytes (Dir es) L). Qed.
(** the command, when it goes through all packages found: all paths lose the version and the number is right *)
Theorem C116_command : forall io name version bases, scattered bases -> forall x n m x' n', (forall b, In b bases -> get (vdir name version b) x = None \/ dir_at (vdir name version b) x) ->
  remove_listed io (length (filter (fun p => is_dir p x) (map (vdir name version) bases))) name version bases x n = Good m x' n' ->
  m = length (filter (fun p => is_dir p x) (map (vdir name version) bases)) /\ (forall b, In b bases -> get (vdir name version b) x' = None) /\ only_among (map (vdir name version) bases) x x'.
Proof. exact listed_all. Qed.
(** packages that are gone when their turn comes are not counted *)
Theorem C116_counted : forall io name version bases x, (forall b, In b bases -> get (vdir name version b) x = None) -> forall k n, remove_listed io k name version bases x n = Good 0 x n.
Proof.
  intros io name version bases x H. assert (F : first_path name version bases x = None).
  { induction bases as [|b bases IH]; [reflexivity|]. cbn [first_path]. unfold exists_at. change (b ++ [name; version]) with (vdir name version b). rewrite (H b (or_introl eq_refl)). apply IH. intros c Hc. apply H. now right. }
  induction k as [|k IH]; intros n; [reflexivity|]. cbn [remove_listed]. unfold remove_single. rewrite F. cbn [bind]. rewrite IH. reflexivity.
Qed.
(** whatever calls fail, everything apart from the version directories stays, when families are not removed *)
Theorem C116_failing : forall io dlen name version bases force x n q, (forall b, In b bases -> apart (vdir name version b) q) ->
  match remove_package_version io dlen name version bases force false x n with Good _ x' _ | Bad x' => get q x' = get q x | Stuck => True end.
Proof. intros io dlen name version bases force x n q A. pose proof (remove_version_keeps io dlen name version bases force x n q A) as K. destruct (remove_package_version _ _ _ _ _ _ _ _ _); [apply K; reflexivity|apply K; reflexivity|exact I]. Qed.
Print Assumptions C116_refuted.
Print Assumptions C116_bytes_refuted.
Print Assumptions C116_preview_refuted.
Print Assumptions C116_only.
Print Assumptions C116_report.
Print Assumptions C116_families.
Print Assumptions C116_absent.
Print Assumptions C116_preview_partial.
Print Assumptions C116_bytes_partial.
Print Assumptions C116_family.
Print Assumptions C116_size_partial.
Print Assumptions C116_command.
Print Assumptions C116_failing.
Print Assumptions C116_counted.
Definition two_copies : node := dir [("a", dir [("maya", dir [("1.0", dir [("package.py", file "name")])])]); ("b", dir [("maya", dir [("1.0", dir [("package.py", file "other")]); ("2.0", dir [])])])].
Example C116_example : let bases := [at_ ["a"]; at_ ["b"]] in let r := remove_package_version never 0 (T "maya") (T "1.0") bases true true two_copies 0 in
  scattered bases /\ r = Good (mkRemoved [at_ ["a"; "maya"; "1.0"]; at_ ["b"; "maya"; "1.0"]] 2 9) (dir [("a", dir []); ("b", dir [("maya", dir [("2.0", dir [])])])]) 3 /\
  preview_removal (T "maya") (Some (T "1.0")) bases two_copies = [at_ ["a"; "maya"; "1.0"]; at_ ["b"; "maya"; "1.0"]] /\
  remove_listed never 2 (T "maya") (T "1.0") bases two_copies 0 = Good 2 (dir [("a", dir [("maya", dir [])]); ("b", dir [("maya", dir [("2.0", dir [])])])]) 2 /\
  remove_package_family never (T "maya") bases two_copies 0 = Good (mkRemoved [at_ ["a"; "maya"]; at_ ["b"; "maya"]] 2 9) (dir [("a", dir []); ("b", dir [])]) 2.
Proof. cbv zeta. split; [constructor; [constructor; [is_apart|constructor]|constructor; [constructor|constructor]]|]. split; [vm_compute; reflexivity|]. split; [vm_compute; reflexivity|]. split; vm_compute; reflexivity. Qed.
