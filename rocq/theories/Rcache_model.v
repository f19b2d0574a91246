(** Model of the repository cache.
    Source: crates/rez-next-repository/src/cache.rs (RC).
    Simplifications: a package is a text; sums of seconds wrap as in a release build; counters do not overflow; a failed write leaves the
    file as it was. The limits on the number and size of entries and the compression switch are read by no code and are left out, as is
    the recorded size, which stays zero. *)
From Verif Require Import Base Maps.

(** RC:15-26 [CacheEntry] *)
Record rentry := mkRentry { re_package : text; re_time : Z; re_ttl : Z; re_path : text; re_mtime : Z }.
(** RC:32, 36-39, 57-60, 68-71: what an operation finds in its surroundings: the clock and the files with their times of change, in
    nanoseconds from the epoch, and whether the cache can write and remove files *)
Record world := mkWorld { w_now : Z; w_file : text -> option (Z * text); w_write : bool; w_remove : bool }.
(** RC:91-104 [CacheConfig], the fields that are read *)
Record rcfg := mkRcfg { rc_ttl : Z; rc_interval : Z }.
(** RC:131-143 [CacheStats], 119-127 [RepositoryCache]; the files of the cache directory by name *)
Record rcache := mkRcache { r_index : list (text * rentry); r_disk : list (text * text); r_hits : nat; r_misses : nat; r_entries : nat; r_last : option Z }.
(** RC:147-153 [new] in an empty directory *)
Definition new_rcache : rcache := mkRcache [] [] 0 0 0 None.

(** RC:32-34, 38-45, 57-60, 68-72: [duration_since] the epoch in whole seconds *)
Definition GIGA : Z := 1000000000.
(** RC:32-34, 38-45, 57-60, 68-72, with the above *)
Definition secs (ns : Z) : option Z := if (ns <? 0)%Z then None else Some (ns / GIGA)%Z.
(** RC:57-60, 299-303, 313-316 *)
Definition now_secs (w : world) : Z := match secs (w_now w) with Some n => n | None => 0%Z end.
(** RC:63, 319: sums of 64-bit numbers *)
Definition wrap64 (z : Z) : Z := (z mod 2 ^ 64)%Z.
(** RC:30-53 [CacheEntry::new] *)
Definition entry_new (w : world) (pkg path : text) (ttl : Z) : option rentry :=
  match secs (w_now w) with
  | None => None
  | Some t =>
    match w_file w path with
    | None => None
    | Some (m, _) => match secs m with None => None | Some s => Some (mkRentry pkg t ttl path s) end
    end
  end.
(** RC:56-76 [is_valid] *)
Definition rvalid (w : world) (e : rentry) : bool :=
  if (wrap64 (re_time e + re_ttl e) <? now_secs w)%Z then false
  else match w_file w (re_path e) with
       | Some (m, _) => match secs m with Some s => (s <=? re_mtime e)%Z | None => true end
       | None => true
       end.
(** RC:353, 368: the name of the file of a key *)
Definition key_file (k : text) : text := k ++ T ".json".
(** RC:366-376 [remove_cache_file]; the flag tells success *)
Definition remove_file (w : world) (k : text) (d : list (text * text)) : bool * list (text * text) :=
  if ahas (key_file k) d then if w_remove w then (true, adel (key_file k) d) else (false, d) else (true, d).
(** RC:173-190 [get]; [None] is an error *)
Definition rget (w : world) (k : text) (c : rcache) : option (option text) * rcache :=
  let miss i d := (Some None, mkRcache i d (r_hits c) (S (r_misses c)) (r_entries c) (r_last c)) in
  match aget k (r_index c) with
  | Some e =>
    if rvalid w e then (Some (Some (re_package e)), mkRcache (r_index c) (r_disk c) (S (r_hits c)) (r_misses c) (r_entries c) (r_last c))
    else
      let i := adel k (r_index c) in
      match remove_file w k (r_disk c) with
      | (true, d) => miss i d
      | (false, d) => (None, mkRcache i d (r_hits c) (r_misses c) (r_entries c) (r_last c))
      end
  | None => miss (r_index c) (r_disk c)
  end.
(** RC:291-294: the entries found bad are removed one by one *)
Fixpoint drop_keys (wv : text -> world) (ks : list text) (i : list (text * rentry)) (d : list (text * text)) : bool * list (text * rentry) * list (text * text) :=
  match ks with
  | [] => (true, i, d)
  | k :: r =>
    match remove_file (wv k) k d with
    | (true, d') => drop_keys wv r (adel k i) d'
    | (false, d') => (false, adel k i, d')
    end
  end.
(** RC:278-308 [cleanup]; [wv] gives the surroundings at the time each key is looked at, [we] those at the end, [ord] the order of the map *)
Definition rcleanup (ord : list text -> list text) (wv : text -> world) (we : world) (c : rcache) : bool * rcache :=
  let bad := ord (akeys (filter (fun e => negb (rvalid (wv (fst e)) (snd e))) (r_index c))) in
  match drop_keys wv bad (r_index c) (r_disk c) with
  | (true, i, d) => (true, mkRcache i d (r_hits c) (r_misses c) (length i) (Some (now_secs we)))
  | (false, i, d) => (false, mkRcache i d (r_hits c) (r_misses c) (r_entries c) (r_last c))
  end.
(** RC:311-330 [cleanup_if_needed] *)
Definition rcleanup_if (cfg : rcfg) (wc : world) (ord : list text -> list text) (wv : text -> world) (we : world) (c : rcache) : bool * rcache :=
  let due := match r_last c with Some last => (wrap64 (last + rc_interval cfg) <? now_secs wc)%Z | None => true end in
  if due then rcleanup ord wv we c else (true, c).

Section Files.
(** RC:355, 341: [to_string_pretty] of an entry and [from_str] of an index *)
Variable write_entry : rentry -> text.
Variable read_index : text -> option (list (text * rentry)).
(** RC:193-223 [put] *)
Definition rput (cfg : rcfg) (w wc : world) (ord : list text -> list text) (wv : text -> world) (we : world) (k pkg path : text) (c : rcache) : bool * rcache :=
  match entry_new w pkg path (rc_ttl cfg) with
  | None => (false, c)
  | Some e =>
    if w_write w then
      let i := aput k e (r_index c) in
      rcleanup_if cfg wc ord wv we (mkRcache i (aput (key_file k) (write_entry e) (r_disk c)) (r_hits c) (r_misses c) (length i) (r_last c))
    else (false, c)
  end.
(** RC:226-238 [remove]; [None] is an error *)
Definition rremove (w : world) (k : text) (c : rcache) : option bool * rcache :=
  if ahas k (r_index c) then
    let i := adel k (r_index c) in
    match remove_file w k (r_disk c) with
    | (true, d) => (Some true, mkRcache i d (r_hits c) (r_misses c) (length i) (r_last c))
    | (false, d) => (None, mkRcache i d (r_hits c) (r_misses c) (r_entries c) (r_last c))
    end
  else (Some false, c).
(** RC:241-269 [clear]; if the directory cannot be removed only the index is emptied *)
Definition rclear (w : world) (c : rcache) : bool * rcache :=
  if w_remove w then (true, mkRcache [] [] 0 0 0 None)
  else (false, mkRcache [] (r_disk c) (r_hits c) (r_misses c) (r_entries c) (r_last c)).
(** RC:147-170, 334-350: [new] and [initialize] in a directory that has files *)
Definition reopen (d : list (text * text)) : option rcache :=
  match aget (T "index.json") d with
  | None => Some (mkRcache [] d 0 0 0 None)
  | Some txt => match read_index txt with Some i => Some (mkRcache i d 0 0 0 None) | None => None end
  end.

(** RC:173-308: the public operations *)
Inductive rop :=
| RGet (w : world) (k : text)
| RPut (w wc : world) (ord : list text -> list text) (wv : text -> world) (we : world) (k pkg path : text)
| RRemove (w : world) (k : text)
| RClear (w : world)
| RCleanup (ord : list text -> list text) (wv : text -> world) (we : world).
(** RC:173-308: the state after an operation *)
Definition rexec (cfg : rcfg) (o : rop) (c : rcache) : rcache :=
  match o with
  | RGet w k => snd (rget w k c)
  | RPut w wc ord wv we k pkg path => snd (rput cfg w wc ord wv we k pkg path c)
  | RRemove w k => snd (rremove w k c)
  | RClear w => snd (rclear w c)
  | RCleanup ord wv we => snd (rcleanup ord wv we c)
  end.
(** RC:173-308: the state after a history, the oldest operation first *)
Definition rafter (cfg : rcfg) (os : list rop) (c : rcache) : rcache := fold_left (fun c o => rexec cfg o c) os c.
End Files.
