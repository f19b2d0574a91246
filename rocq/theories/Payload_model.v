(** Model of the payload cache.
    Source: crates/rez-next-package/src/package_cache.rs (abbreviated PC).
    Every operation is a sequence of file-system steps; processes interleave between steps and may stop after any of them.
    Simplifications: reading a directory and the metadata files in it is one step; the increment and the time written to the
    metadata are fixed in one step; a file is copied in two steps (created empty, then filled); moving a payload away succeeds
    or does nothing; directories have no other contents; names are ASCII.  Not modelled: I/O errors, the log, symbolic links,
    the removal of empty directories. *)
From Verif Require Import Base Maps Sorting Base26_model.

(** PC:129-142 [VariantHandle]; attributes are a map *)
Record handle := mkHandle { h_name : text; h_version : option text; h_index : option N; h_attrs : list (text * text) }.
(** PC:155-170 [hashable_repr] *)
Definition hrepr (h : handle) : text :=
  T "name=" ++ h_name h
  ++ match h_version h with Some v => T ", version=" ++ v | None => [] end
  ++ match h_index h with Some i => T ", index=" ++ show_N i | None => [] end
  ++ flat_map (fun kv => T ", " ++ fst kv ++ T "=" ++ snd kv) (sort_by (fun a b => text_cmp (fst a) (fst b)) (h_attrs h)).
(** PC:304-320 [hash_path], relative to the root; [hash] stands for the hexadecimal digest (PC:173-183), of which 4 characters are used *)
Definition hpath (hash : text -> text) (h : handle) : text :=
  map to_lower (h_name h) ++ T "/" ++ map to_lower (match h_version h with Some v => v | None => T "_NO_VERSION" end)
  ++ T "/" ++ firstn 4 (hash (hrepr h)).

(** the files of a payload and their contents *)
Definition files := list (text * text).
(** PC:190-205 [CachedVariantInfo] as read back from disk: unreadable, or handle, last access and size *)
Inductive meta := Garbled | Meta (h : handle) (accessed size : N).
(** what is on disk for one increment [i]: [.copying-i] with its time, [i.json], the directory [i] *)
Record slot := mkSlot { s_flag : option N; s_meta : option meta; s_load : option files }.
(** PC:452-453: none of these files exists *)
Definition no_slot : slot := mkSlot None None None.
(** the directory of one hash path, by increment *)
Definition bucket := list (text * slot).
(** the cache: the hash directories, and .sys/to_delete (PC:322-330) *)
Record cache := mkCache { ca_buckets : list (text * bucket); ca_trash : list files }.
(** PC:322-330, with the above *)
Definition no_cache : cache := mkCache [] [].
(** PC:322-330, with the above *)
Definition bucket_of (c : cache) (b : text) : bucket := match aget b (ca_buckets c) with Some x => x | None => [] end.
(** PC:322-330, with the above *)
Definition slot_of (c : cache) (b i : text) : slot := match aget i (bucket_of c b) with Some s => s | None => no_slot end.
(** PC:322-330, with the above *)
Definition set_slot (c : cache) (b i : text) (s : slot) : cache :=
  mkCache (aput b (aput i s (bucket_of c b)) (ca_buckets c)) (ca_trash c).

(** ** File-system steps *)
Inductive action :=
| AFlag (now : N)                            (* PC:456 *)
| ATrunc                                     (* PC:473, 665: [File::create] empties the metadata file *)
| AMeta (h : handle) (accessed size : N)     (* PC:473, 666: [write_all] *)
| AMkdir                                     (* PC:712: [create_dir_all] *)
| AWrite (f content : text)                  (* PC:722: [fs::copy], twice per file *)
| AUnflag                                    (* PC:479 *)
| AMove                                      (* PC:506: [rename] *)
| ADrop.                                     (* PC:514: the metadata file is removed *)
(** the effect of a step on the files of one increment *)
Definition act (a : action) (s : slot) : slot :=
  match a with
  | AFlag t => mkSlot (Some t) (s_meta s) (s_load s)
  | ATrunc => mkSlot (s_flag s) (Some Garbled) (s_load s)
  | AMeta h t z => mkSlot (s_flag s) (Some (Meta h t z)) (s_load s)
  | AMkdir => mkSlot (s_flag s) (s_meta s) (Some (match s_load s with Some l => l | None => [] end))
  | AWrite f x => mkSlot (s_flag s) (s_meta s) (Some (aput f x (match s_load s with Some l => l | None => [] end)))
  | AUnflag => mkSlot None (s_meta s) (s_load s)
  | AMove => mkSlot (s_flag s) (s_meta s) None
  | ADrop => mkSlot (s_flag s) None (s_load s)
  end.
(** PC:452-514: the same in the cache *)
Definition act_on (c : cache) (b i : text) (a : action) : cache :=
  let c' := set_slot c b i (act a (slot_of c b i)) in
  match a, s_load (slot_of c b i) with
  | AMove, Some l => mkCache (ca_buckets c') (ca_trash c' ++ [l])
  | _, _ => c'
  end.

(** ** Lookup *)
(** PC:49-73 [CacheStatus] *)
Inductive status := NotFound | Found | CreatedNow | Copying | CopyStalled | Removed | Skipped.
(** PC:366: the metadata is readable and has the same text *)
Definition matches (h : handle) (e : text * slot) : bool :=
  match s_meta (snd e) with Some (Meta h' _ _) => text_eqb (hrepr h') (hrepr h) | _ => false end.
(** PC:366, with the above *)
Inductive lookup := LNone | LBusy (i : text) (stalled : bool) | LFound (i : text) (h : handle) (size : N).
(** PC:341-392 [get_cached_root], without the update of the access time; [ord] is the order in which the directory is read.
    PC:671-679 [is_file_stalled]: the flag is older than 300 seconds (a time in the future counts as age 0) *)
Definition look (hash : text -> text) (ord : bucket -> bucket) (now : N) (h : handle) (c : cache) : lookup :=
  match find (matches h) (ord (bucket_of c (hpath hash h))) with
  | Some (i, s) =>
      match s_flag s with
      | Some t => LBusy i (300 <? now - t)%N
      | None => match s_meta s with Some (Meta h' _ z) => LFound i h' z | _ => LNone end
      end
  | None => LNone
  end.
(** PC:682-708 [next_increment]: the alphabetically last metadata file decides *)
Definition inc_step (acc : option text) (e : text * slot) : option text :=
  match s_meta (snd e) with
  | None => acc
  | Some _ => match acc with
              | None => Some (fst e)
              | Some m => if is_gt (text_cmp (fst e) m) then Some (fst e) else acc
              end
  end.
(** PC:682-708, with the above *)
Definition next_inc (ord : bucket -> bucket) (b : bucket) : option text :=
  match fold_left inc_step (ord b) None with None => Some (T "a") | Some m => increment_string m end.

(** ** Operations *)
(** the answer: a status, and the bucket and increment it points to *)
Definition answer := (status * option (text * text))%type.
(** the calls of PC: looking up, adding and removing a variant (PC:341-525) *)
Inductive op :=
| OGet (h : handle)
| OAdd (h : handle) (src : files) (fits : bool)    (* [fits]: the outcome of the disk space check, or forced *)
| ORemove (h : handle).
(** PC:341-525: how far a call has come *)
Inductive stage :=
| Start (o : op)
| Chosen (h : handle) (src : files)                          (* not cached yet, about to choose the increment *)
| Acting (b i : text) (todo : list action) (a : answer)
| Finished (a : answer)
| Panicked.
(** PC:711-727 [copy_dir_recursive] *)
Definition copy_acts (src : files) : list action := AMkdir :: flat_map (fun f => [AWrite (fst f) []; AWrite (fst f) (snd f)]) src.
(** PC:730-776 [directory_size], the sum of the lengths *)
Definition size_of (src : files) : N := fold_left (fun n f => n + N.of_nat (length (snd f)))%N src 0%N.
(** PC:448-481: the steps that cache a variant *)
Definition add_acts (h : handle) (src : files) (now : N) : list action :=
  AFlag now :: ATrunc :: AMeta h now (size_of src) :: copy_acts src ++ [AUnflag].
(** PC:656-668 [update_access_time] *)
Definition touch_acts (h : handle) (now size : N) : list action := [ATrunc; AMeta h now size].
(** PC:341-392, 407-482, 488-523: one step of an operation *)
Definition pstep (hash : text -> text) (ord : bucket -> bucket) (now : N) (c : cache) (s : stage) : cache * stage :=
  match s with
  | Start (OGet h) =>
      let b := hpath hash h in
      match look hash ord now h c with
      | LNone => (c, Finished (NotFound, None))
      | LBusy i st => (c, Finished (if st then CopyStalled else Copying, Some (b, i)))
      | LFound i h' z => (c, Acting b i (touch_acts h' now z) (Found, Some (b, i)))
      end
  | Start (OAdd h src fits) =>
      let b := hpath hash h in
      match look hash ord now h c with
      | LNone => (c, if fits then Chosen h src else Finished (Skipped, None))
      | LBusy i st => (c, Finished (if st then CopyStalled else Copying, Some (b, i)))
      | LFound i h' z => (c, Acting b i (touch_acts h' now z) (Found, Some (b, i)))
      end
  | Start (ORemove h) =>
      let b := hpath hash h in
      match look hash ord now h c with
      | LNone => (c, Finished (NotFound, None))
      | LBusy i st => (c, Finished (if st then CopyStalled else Copying, Some (b, i)))
      | LFound i h' z => (c, Acting b i (touch_acts h' now z ++ [AMove; ADrop]) (Removed, Some (b, i)))
      end
  | Chosen h src =>
      let b := hpath hash h in
      match next_inc ord (bucket_of c b) with
      | Some i => (c, Acting b i (add_acts h src now) (CreatedNow, Some (b, i)))
      | None => (c, Panicked)
      end
  | Acting b i [] a => (c, Finished a)
  | Acting b i (x :: todo) a => (act_on c b i x, Acting b i todo a)
  | Finished _ | Panicked => (c, s)
  end.
(** [k] steps of one operation, undisturbed; with a small [k] this is an operation that crashed *)
Fixpoint steps (hash : text -> text) (ord : bucket -> bucket) (now : N) (k : nat) (cs : cache * stage) : cache * stage :=
  match k with O => cs | S j => steps hash ord now j (pstep hash ord now (fst cs) (snd cs)) end.

(** ** Several processes *)
Definition system := (cache * list stage)%type.
(** PC:341-525 run by several processes: one of them moves on *)
Fixpoint set_nth {A} (n : nat) (x : A) (l : list A) : list A :=
  match l, n with
  | [], _ => []
  | _ :: l', O => x :: l'
  | y :: l', S m => y :: set_nth m x l'
  end.
(** process [n] makes one step *)
Definition sys_step (hash : text -> text) (ord : bucket -> bucket) (now : N) (n : nat) (st : system) : system :=
  match nth_error (snd st) n with
  | Some s => let (c, s') := pstep hash ord now (fst st) s in (c, set_nth n s' (snd st))
  | None => st
  end.
(** a schedule: which process moves next; a process that is not scheduled any more has crashed *)
Fixpoint schedule (hash : text -> text) (ord : bucket -> bucket) (now : N) (ns : list nat) (st : system) : system :=
  match ns with [] => st | n :: ns' => schedule hash ord now ns' (sys_step hash ord now n st) end.

(** ** Listing and cleaning *)
(** PC:528-584 [list_cached]: every readable entry, found if its directory exists, pending otherwise *)
Definition listed (c : cache) : list (handle * (text * text) * bool) :=
  flat_map (fun b => flat_map (fun e => match s_meta (snd e) with
                                        | Some (Meta h _ _) => [(h, (fst b, fst e), match s_load (snd e) with Some _ => true | None => false end)]
                                        | _ => [] end) (snd b)) (ca_buckets c).
(** PC:779-782 [check_disk_space] on 64-bit numbers: [None] is the overflow panic of a debug build, otherwise the difference wraps *)
Definition check_space (debug : bool) (min_free available needed : N) : option bool :=
  if (needed <=? available)%N then Some (min_free <? available - needed)%N
  else if debug then None else Some (min_free <? available + 18446744073709551616 - needed)%N.
(** PC:805-815 [variant_meets_space_requirements] *)
Definition meets_space (min_free available size : N) : bool := (size + min_free <? available)%N.
(** PC:626-632: [now - accessed > max_age] on 64-bit numbers: [None] is the overflow panic of a debug build, otherwise the difference wraps *)
Definition too_old (debug : bool) (max_age now accessed : N) : option bool :=
  if (accessed <=? now)%N then Some (max_age <? now - accessed)%N
  else if debug then None else Some (max_age <? now + 18446744073709551616 - accessed)%N.
(** PC:488-523: a whole removal *)
Definition remove_variant (hash : text -> text) (ord : bucket -> bucket) (now : N) (h : handle) (c : cache) : cache :=
  fst (steps hash ord now 8 (c, Start (ORemove h))).
(** PC:618-640: the entries found in the listing, one after the other; [None] is a panic *)
Fixpoint clean_entries (hash : text -> text) (ord : bucket -> bucket) (debug : bool) (max_age now : N)
    (es : list (handle * (text * text) * bool)) (c : cache) : option cache :=
  match es with
  | [] => Some c
  | (h, (b, i), false) :: es' => clean_entries hash ord debug max_age now es' c
  | (h, (b, i), true) :: es' =>
      match s_meta (slot_of c b i) with
      | Some (Meta _ t _) =>
          match too_old debug max_age now t with
          | None => None
          | Some true => clean_entries hash ord debug max_age now es' (remove_variant hash ord now h c)
          | Some false => clean_entries hash ord debug max_age now es' c
          end
      | _ => clean_entries hash ord debug max_age now es' c
      end
  end.
(** PC:594-643 [clean] without time limit; [lord] is the order in which the cache is listed.  The statistics are not modelled. *)
Definition clean (hash : text -> text) (ord : bucket -> bucket) (lord : list (handle * (text * text) * bool) -> list (handle * (text * text) * bool))
    (debug : bool) (max_age : option N) (now : N) (c : cache) : option cache :=
  let c := mkCache (ca_buckets c) [] in
  match max_age with
  | Some m => clean_entries hash ord debug m now (lord (listed c)) c
  | None => Some c
  end.
