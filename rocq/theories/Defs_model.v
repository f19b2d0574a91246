(** Model of the cache of package definitions.
    Source: crates/rez-next-package-cache/src/lib.rs (DC).
    Simplifications: times are nanoseconds from the epoch; one operation reads the clock and the state of the file of its package once;
    counters do not overflow; the JSON library and the hash of paths are parameters; the 16 digits of a hash name a file; a write that
    fails leaves the file as it was or cut short. *)
From Verif Require Import Base Maps.
Open Scope string_scope.
Open Scope list_scope.

(** DC:37-53 [CachedPackage] *)
Record dentry := mkDentry { d_name : text; d_version : text; d_path : text; d_mtime : Z; d_data : text; d_cached : Z; d_ttl : option Z }.
(** DC:66, 70: a second in nanoseconds *)
Definition SEC : Z := 1000000000.
(** DC:63-70: [duration_since] is an error for a later time; [as_secs] drops the fraction *)
Definition moved (a b : Z) : bool := (b <=? a)%Z && (0 <? (a - b) / SEC)%Z.
(** DC:56-88 [is_valid] *)
Definition dvalid (now : Z) (e : dentry) (m : Z) : bool :=
  if moved m (d_mtime e) || moved (d_mtime e) m then false
  else match d_ttl e with
       | None => true
       | Some ttl => if (d_cached e <=? now)%Z then negb (ttl <? now - d_cached e)%Z else false
       end.

(** DC:113-125 [CacheStats] *)
Record dstats := mkDstats { st_hits : nat; st_misses : nat; st_puts : nat; st_removes : nat; st_clears : nat }.
(** DC:130-133 [InMemoryCache] *)
Record dmem := mkDmem { m_store : list (text * dentry); m_stats : dstats }.
(** DC:137-142 [InMemoryCache::new] *)
Definition new_dmem : dmem := mkDmem [] (mkDstats 0 0 0 0 0).
(** DC:160, 174, 178, 186, 192, 198: the counters *)
Definition hit (s : dstats) : dstats := mkDstats (S (st_hits s)) (st_misses s) (st_puts s) (st_removes s) (st_clears s).
(** DC:160, 174, 178, 186, 192, 198, with the above *)
Definition miss (s : dstats) : dstats := mkDstats (st_hits s) (S (st_misses s)) (st_puts s) (st_removes s) (st_clears s).
(** DC:160, 174, 178, 186, 192, 198, with the above *)
Definition stored (s : dstats) : dstats := mkDstats (st_hits s) (st_misses s) (S (st_puts s)) (st_removes s) (st_clears s).
(** DC:160, 174, 178, 186, 192, 198, with the above *)
Definition removed (s : dstats) : dstats := mkDstats (st_hits s) (st_misses s) (st_puts s) (S (st_removes s)) (st_clears s).
(** DC:160, 174, 178, 186, 192, 198, with the above *)
Definition cleared (s : dstats) : dstats := mkDstats (st_hits s) (st_misses s) (st_puts s) (st_removes s) (S (st_clears s)).

(** DC:283 [std::fs::write]: it succeeds, cannot open the file, or stops after some bytes (by an error or with the whole process) *)
Inductive wout := WDone | WRefused | WCut (n : nat).
(** DC:78, 164-165, 255-256, 260-261, 270, 283, 295, 307-311, 388-390: what an operation finds in its surroundings: the clock, the files of
    packages with time of change and content, which calls on the cache directory succeed, and the order in which it is listed *)
Record dworld := mkDworld { dw_now : Z; dw_file : text -> option (Z * text); dw_read : bool; dw_remove : text -> bool; dw_write : wout; dw_order : option (list text -> list text) }.
(** DC:164-165, 260-261, 388-390: the lookup of the time of change *)
Definition dw_time (w : dworld) (p : text) : option Z := option_map fst (dw_file w p).
(** DC:164-166, 260-262: an entry may be used *)
Definition usable (w : dworld) (p : text) (e : dentry) : bool :=
  match dw_time w p with Some m => dvalid (dw_now w) e m | None => false end.

(** DC:156-182 [InMemoryCache::get] *)
Definition mget (w : dworld) (p : text) (m : dmem) : option dentry * dmem :=
  match aget p (m_store m) with
  | Some e =>
    if usable w p e then (Some e, mkDmem (m_store m) (hit (m_stats m)))
    else (None, mkDmem (adel p (m_store m)) (miss (hit (m_stats m))))
  | None => (None, mkDmem (m_store m) (miss (m_stats m)))
  end.
(** DC:184-188 [put] *)
Definition mput (p : text) (e : dentry) (m : dmem) : dmem := mkDmem (aput p e (m_store m)) (stored (m_stats m)).
(** DC:190-194 [remove] *)
Definition mremove (p : text) (m : dmem) : dmem := mkDmem (adel p (m_store m)) (removed (m_stats m)).
(** DC:196-200 [clear] *)
Definition mclear (m : dmem) : dmem := mkDmem [] (cleared (m_stats m)).

(** DC:242: a hexadecimal digit and a number of them ([{:016x}]) *)
Definition hex_digit (n : N) : ascii := if (n <? 10)%N then ascii_of_N (48 + n) else ascii_of_N (87 + n).
(** DC:242, with the above *)
Fixpoint hexw (k : nat) (n : N) : text :=
  match k with
  | 0 => []
  | S j => hexw j (n / 16)%N ++ [hex_digit (n mod 16)%N]
  end.
(** what the cache directory holds (DC:217, 242, 307) *)
Inductive dnode := DFile (c : text) | DDir.
(** DC:216-219 [FileCache] *)
Record dcache := mkDcache { c_mem : dmem; c_dir : list (text * dnode) }.
(** DC:223-230 [FileCache::new]: a new process starts with an empty memory and the directory as it is *)
Definition reopened (d : list (text * dnode)) : dcache := mkDcache new_dmem d.
(** DC:309: [extension], the part behind the last dot of a name that has something before it *)
Definition json_name (n : text) : bool := ends_with (T ".json") n && negb (text_eqb n (T ".json")).

Section Files.
Context (write : dentry -> option text) (read : text -> option dentry) (hash : text -> N).
(** DC:233-243 [cache_file_path] *)
Definition file_of (p : text) : text := hexw 16 (hash p) ++ T ".json".
(** DC:247-274 [FileCache::get]; [None] is an error *)
Definition fget (w : dworld) (p : text) (c : dcache) : option (option dentry) * dcache :=
  match mget w p (c_mem c) with
  | (Some e, m) => (Some (Some e), mkDcache m (c_dir c))
  | (None, m) =>
    match aget (file_of p) (c_dir c) with
    | None => (Some None, mkDcache m (c_dir c))
    | Some DDir => (None, mkDcache m (c_dir c))
    | Some (DFile t) =>
      if dw_read w then
        match read t with
        | None => (None, mkDcache m (c_dir c))
        | Some e =>
          if usable w p e then (Some (Some e), mkDcache (mput p e m) (c_dir c))
          else if dw_remove w (file_of p) then (Some None, mkDcache m (adel (file_of p) (c_dir c)))
          else (None, mkDcache m (c_dir c))
        end
      else (None, mkDcache m (c_dir c))
    end
  end.
(** DC:276-286 [put] *)
Definition fput (w : dworld) (p : text) (e : dentry) (c : dcache) : bool * dcache :=
  let m := mput p e (c_mem c) in
  match write e with
  | None => (false, mkDcache m (c_dir c))
  | Some t =>
    match aget (file_of p) (c_dir c) with
    | Some DDir => (false, mkDcache m (c_dir c))
    | _ =>
      match dw_write w with
      | WDone => (true, mkDcache m (aput (file_of p) (DFile t) (c_dir c)))
      | WRefused => (false, mkDcache m (c_dir c))
      | WCut n => (false, mkDcache m (aput (file_of p) (DFile (firstn n t)) (c_dir c)))
      end
    end
  end.
(** DC:288-299 [remove] *)
Definition fremove (w : dworld) (p : text) (c : dcache) : bool * dcache :=
  let m := mremove p (c_mem c) in
  match aget (file_of p) (c_dir c) with
  | None => (true, mkDcache m (c_dir c))
  | Some DDir => (false, mkDcache m (c_dir c))
  | Some (DFile _) => if dw_remove w (file_of p) then (true, mkDcache m (adel (file_of p) (c_dir c))) else (false, mkDcache m (c_dir c))
  end.
(** DC:307-313: the listed files with the extension go until one cannot be removed *)
Fixpoint remove_json (w : dworld) (ns : list text) (d : list (text * dnode)) : bool * list (text * dnode) :=
  match ns with
  | [] => (true, d)
  | n :: ns' =>
    if json_name n then
      match aget n d with
      | Some (DFile _) => if dw_remove w n then remove_json w ns' (adel n d) else (false, d)
      | _ => (false, d)
      end
    else remove_json w ns' d
  end.
(** DC:301-315 [clear] *)
Definition fclear (w : dworld) (c : dcache) : bool * dcache :=
  let m := mclear (c_mem c) in
  match dw_order w with
  | None => (false, mkDcache m (c_dir c))
  | Some ord => let '(b, d) := remove_json w (ord (akeys (c_dir c))) (c_dir c) in (b, mkDcache m d)
  end.

(** ** The package cache in front of a store of files *)
(** DC:371-378 [PackageCache::put]: an entry without a time to live takes the default *)
Definition with_ttl (ttl : option Z) (e : dentry) : dentry :=
  match d_ttl e with
  | None => mkDentry (d_name e) (d_version e) (d_path e) (d_mtime e) (d_data e) (d_cached e) ttl
  | Some _ => e
  end.
(** DC:381-403 [put_package]: what is stored *)
Definition packed (w : dworld) (ttl : option Z) (p name version data : text) : dentry :=
  mkDentry name version p (match dw_time w p with Some m => m | None => dw_now w end) data (dw_now w) ttl.
(** DC:366-427: the operations, and the end of a process *)
Inductive dop :=
  | DGet (w : dworld) (p : text)
  | DPut (w : dworld) (p : text) (e : dentry)
  | DPutPackage (w : dworld) (p name version data : text)
  | DRemove (w : dworld) (p : text)
  | DClear (w : dworld)
  | DInvalidate (w : dworld)
  | DRestart.
(** DC:33: what an operation returns *)
Inductive dres := RErr | RFound (e : option dentry) | ROk | RCount (n : nat).
(** DC:33: success without a value *)
Definition ok_if (b : bool) (r : dres) : dres := if b then r else RErr.
(** DC:366-427 *)
Definition fexec (ttl : option Z) (o : dop) (c : dcache) : dres * dcache :=
  match o with
  | DGet w p => let '(r, c') := fget w p c in (match r with Some e => RFound e | None => RErr end, c')
  | DPut w p e => let '(b, c') := fput w p (with_ttl ttl e) c in (ok_if b ROk, c')
  | DPutPackage w p n v d => let '(b, c') := fput w p (with_ttl ttl (packed w ttl p n v d)) c in (ok_if b ROk, c')
  | DRemove w p => let '(b, c') := fremove w p c in (ok_if b ROk, c')
  | DClear w => let '(b, c') := fclear w c in (ok_if b ROk, c')
  | DInvalidate w => let '(b, c') := fclear w c in (ok_if b (RCount 0), c')
  | DRestart => (ROk, reopened (c_dir c))
  end.
(** a history of operations (DC:366-427) *)
Fixpoint frun (ttl : option Z) (os : list dop) (c : dcache) : list dres * dcache :=
  match os with
  | [] => ([], c)
  | o :: os' => let '(r, c1) := fexec ttl o c in let '(rs, c2) := frun ttl os' c1 in (r :: rs, c2)
  end.
End Files.

(** ** The package cache in front of a store in memory (DC:155-212, 364-428) *)
Definition mexec (ttl : option Z) (o : dop) (m : dmem) : dres * dmem :=
  match o with
  | DGet w p => let '(r, m') := mget w p m in (RFound r, m')
  | DPut w p e => (ROk, mput p (with_ttl ttl e) m)
  | DPutPackage w p n v d => (ROk, mput p (with_ttl ttl (packed w ttl p n v d)) m)
  | DRemove w p => (ROk, mremove p m)
  | DClear w => (ROk, mclear m)
  | DInvalidate w => (RCount 0, mclear m)
  | DRestart => (ROk, new_dmem)
  end.
(** a history of operations (DC:366-427) *)
Fixpoint mrun (ttl : option Z) (os : list dop) (m : dmem) : list dres * dmem :=
  match os with
  | [] => ([], m)
  | o :: os' => let '(r, m1) := mexec ttl o m in let '(rs, m2) := mrun ttl os' m1 in (r :: rs, m2)
  end.

(** ** Threads that share a store in memory *)
(** DC:156-200: the steps of one thread between which others run. A lookup holds the guard of its entry while it checks it and lets it go
    before it removes the entry. [TFound] and [TLost] are the ends of a lookup. *)
Inductive tact := TGet (w : dworld) (p : text) | TDrop (p : text) | TPut (p : text) (e : dentry) | TRemove (p : text) | TClear.
(** what a step leaves to the thread, and what it reports *)
Definition tstep (a : tact) (st : list (text * dentry)) : option (option dentry) * list tact * list (text * dentry) :=
  match a with
  | TGet w p =>
    match aget p st with
    | Some e => if usable w p e then (Some (Some e), [], st) else (None, [TDrop p], st)
    | None => (Some None, [], st)
    end
  | TDrop p => (Some None, [], adel p st)
  | TPut p e => (None, [], aput p e st)
  | TRemove p => (None, [], adel p st)
  | TClear => (None, [], [])
  end.
(** the threads, each with the steps left to do (DC:130-200) *)
Fixpoint tset (i : nat) (t : list tact) (ts : list (list tact)) : list (list tact) :=
  match ts, i with
  | [], _ => []
  | _ :: ts', 0 => t :: ts'
  | u :: ts', S j => u :: tset j t ts'
  end.
(** one schedule: the number of the thread that runs next, and the results of lookups with the action that gave them (DC:130-200) *)
Fixpoint trun (sched : list nat) (ts : list (list tact)) (st : list (text * dentry)) : list (nat * tact * option dentry) * list (list tact) * list (text * dentry) :=
  match sched with
  | [] => ([], ts, st)
  | i :: l =>
    match nth_error ts i with
    | Some (a :: t) =>
      let '(r, more, st') := tstep a st in
      let '(rs, ts', st'') := trun l (tset i (more ++ t) ts) st' in
      (match r with Some e => (i, a, e) :: rs | None => rs end, ts', st'')
    | _ => trun l ts st
    end
  end.
