(** Model of the two-level cache.
    Source: crates/rez-next-cache/src/intelligent_manager.rs (IM), cache_stats.rs (CS), cache_config.rs (CC).
    Simplifications: keys and values are texts; clocks are in nanoseconds; counters do not overflow. The priorities of entries are
    floating-point numbers of their ages, counts and sizes: the order they give is an arbitrary function of the level, so last accesses,
    sizes and scores are left out. Access patterns, preheating, tuning and latency records do not touch the entries and are left out. *)
From Verif Require Import Base Maps.

(** IM:24-41 [MultiLevelCacheEntry] *)
Record centry := mkCentry { ce_value : text; ce_created : Z; ce_count : nat; ce_ttl : Z }.
(** CC:35-50, 68-82: the limits of both levels, the lifetime of new entries and the count that promotes *)
Record ccfg := mkCcfg { cc_max1 : nat; cc_max2 : nat; cc_ttl : Z; cc_promote : nat }.
(** IM:98-120 [IntelligentCacheManager]; CS:51-56, 138-142: the counters that the cache keeps itself *)
Record cstats := mkCstats { cs_hits1 : nat; cs_misses1 : nat; cs_hits2 : nat; cs_misses2 : nat; cs_promotions : nat; cs_demotions : nat }.
(** IM:104-117 *)
Record cache := mkCache { c_l1 : list (text * centry); c_l2 : list (text * centry); c_stats : cstats }.
(** CS:75-89: all counters start at zero *)
Definition no_stats : cstats := mkCstats 0 0 0 0 0 0.
(** IM:128-143 [new] *)
Definition new_cache : cache := mkCache [] [] no_stats.
(** CC:320-342 [validate], as far as the limits go *)
Definition cfg_ok (c : ccfg) : bool := negb (Nat.eqb (cc_max1 c) 0) && negb (Nat.eqb (cc_max2 c) 0).

(** nanoseconds in a second, for IM:65-69 *)
Definition NS : Z := 1000000000.
(** IM:60-71 [is_valid]: an age that cannot be told counts as the largest number of seconds *)
Definition entry_valid (now : Z) (e : centry) : bool :=
  if (ce_ttl e =? 0)%Z then true
  else if (now <? ce_created e)%Z then false
  else ((now - ce_created e) / NS <? ce_ttl e)%Z.
(** IM:74-77 [mark_accessed] *)
Definition mark (e : centry) : centry := mkCentry (ce_value e) (ce_created e) (S (ce_count e)) (ce_ttl e).

(** the keys of a level from the lowest priority up, for IM:256-266 and 287-297 *)
Definition ranking := list (text * centry) -> list text.
(** IM:253, 284: a tenth of the entries, at least one *)
Definition evict_count (n : nat) : nat := Nat.max 1 (n / 10).
(** IM:282-304 [evict_l2_entries] *)
Definition evict2 (r : ranking) (m : list (text * centry)) : list (text * centry) :=
  fold_left (fun m k => adel k m) (firstn (evict_count (length m)) (r m)) m.
(** IM:222-237: the room made in the second level and the insertion *)
Definition demote (c : ccfg) (r : ranking) (k : text) (e : centry) (m : list (text * centry)) : list (text * centry) :=
  aput k e (if cc_max2 c <=? length m then evict2 r m else m).
(** IM:269-276: the victims one after another; the first component counts the demotions of IM:243-246 *)
Fixpoint evict_keys (c : ccfg) (r : ranking) (vs : list text) (m1 m2 : list (text * centry)) : nat * list (text * centry) * list (text * centry) :=
  match vs with
  | [] => (0, m1, m2)
  | k :: vs' =>
      match aget k m1 with
      | None => evict_keys c r vs' m1 m2
      | Some e =>
          if 1 <? ce_count e then
            let '(n, a, b) := evict_keys c r vs' (adel k (adel k m1)) (demote c r k e m2) in (S n, a, b)
          else evict_keys c r vs' (adel k m1) m2
      end
  end.
(** IM:252-279 [evict_l1_entries], with the test in front of its calls in IM:191-193 and 443-445 *)
Definition make_room (c : ccfg) (r : ranking) (m1 m2 : list (text * centry)) : nat * list (text * centry) * list (text * centry) :=
  if cc_max1 c <=? length m1 then evict_keys c r (firstn (evict_count (length m1)) (r m1)) m1 m2 else (0, m1, m2).
(** IM:245 *)
Definition add_demotions (n : nat) (s : cstats) : cstats := mkCstats (cs_hits1 s) (cs_misses1 s) (cs_hits2 s) (cs_misses2 s) (cs_promotions s) (n + cs_demotions s).
(** IM:185-213 [promote_to_l1] *)
Definition promote (c : ccfg) (r : ranking) (k : text) (e : centry) (s : cache) : cache :=
  let '(n, m1, m2) := make_room c r (c_l1 s) (c_l2 s) in
  let st := add_demotions n (c_stats s) in
  mkCache (aput k (mark e) m1) (adel k m2) (mkCstats (cs_hits1 st) (cs_misses1 st) (cs_hits2 st) (cs_misses2 st) (S (cs_promotions st)) (cs_demotions st)).
(** IM:363 *)
Definition hit1 (s : cstats) : cstats := mkCstats (S (cs_hits1 s)) (cs_misses1 s) (cs_hits2 s) (cs_misses2 s) (cs_promotions s) (cs_demotions s).
(** IM:399 *)
Definition hit2 (s : cstats) : cstats := mkCstats (cs_hits1 s) (cs_misses1 s) (S (cs_hits2 s)) (cs_misses2 s) (cs_promotions s) (cs_demotions s).
(** IM:416-417 *)
Definition miss (s : cstats) : cstats := mkCstats (cs_hits1 s) (S (cs_misses1 s)) (cs_hits2 s) (S (cs_misses2 s)) (cs_promotions s) (cs_demotions s).
(** IM:362, 398, 415: the counters change, the levels stay *)
Definition set_stats (f : cstats -> cstats) (s : cache) : cache := mkCache (c_l1 s) (c_l2 s) (f (c_stats s)).
(** IM:377-412: the second level *)
Definition get2 (c : ccfg) (r : ranking) (now : Z) (k : text) (s : cache) : option text * cache :=
  match aget k (c_l2 s) with
  | None => (None, set_stats miss s)
  | Some e =>
      if entry_valid now e then
        let e' := mark e in
        (Some (ce_value e),
         set_stats hit2 (if cc_promote c <=? ce_count e' then promote c r k e' (mkCache (c_l1 s) (adel k (c_l2 s)) (c_stats s))
                         else mkCache (c_l1 s) (aput k e' (c_l2 s)) (c_stats s)))
      else (None, set_stats miss (mkCache (c_l1 s) (adel k (c_l2 s)) (c_stats s)))
  end.
(** IM:349-429 [get]; the clock is read for each level *)
Definition get (c : ccfg) (r : ranking) (now1 now2 : Z) (k : text) (s : cache) : option text * cache :=
  match aget k (c_l1 s) with
  | Some e =>
      if entry_valid now1 e then (Some (ce_value e), set_stats hit1 (mkCache (aput k (mark e) (c_l1 s)) (c_l2 s) (c_stats s)))
      else get2 c r now2 k (mkCache (adel k (c_l1 s)) (c_l2 s) (c_stats s))
  | None => get2 c r now2 k s
  end.
(** IM:45-57 [MultiLevelCacheEntry::new], 432-462 [put] *)
Definition put (c : ccfg) (r : ranking) (now : Z) (k v : text) (s : cache) : cache :=
  let '(n, m1, m2) := make_room c r (c_l1 s) (c_l2 s) in
  mkCache (aput k (mkCentry v now 1 (cc_ttl c)) m1) m2 (add_demotions n (c_stats s)).
(** IM:465-479 [remove] *)
Definition remove (k : text) (s : cache) : bool * cache :=
  (ahas k (c_l1 s) || ahas k (c_l2 s), mkCache (adel k (c_l1 s)) (adel k (c_l2 s)) (c_stats s)).
(** IM:482-497 [contains_key] *)
Definition contains (now1 now2 : Z) (k : text) (s : cache) : bool :=
  if (match aget k (c_l1 s) with Some e => entry_valid now1 e | None => false end) then true
  else match aget k (c_l2 s) with Some e => entry_valid now2 e | None => false end.
(** IM:506-521 [clear] *)
Definition clear (s : cache) : cache := new_cache.
(** IM:524-531 [size] *)
Definition size (s : cache) : nat := length (c_l1 s) + length (c_l2 s).
(** IM:539-541 [capacity] *)
Definition capacity (c : ccfg) : nat := cc_max1 c + cc_max2 c.
(** CS:275-283: the totals that the hit rate is computed from *)
Definition total_hits (s : cache) : nat := cs_hits1 (c_stats s) + cs_hits2 (c_stats s).
(** CS:278 *)
Definition total_misses (s : cache) : nat := cs_misses1 (c_stats s) + cs_misses2 (c_stats s).

(** a call of the cache, IM:343-521 *)
Inductive cop := OGet (r : ranking) (now1 now2 : Z) (k : text) | OPut (r : ranking) (now : Z) (k v : text) | ORemove (k : text) | OClear.
(** IM:343-521: the effect of a call and the value it returns *)
Definition exec (c : ccfg) (o : cop) (s : cache) : option text * cache :=
  match o with
  | OGet r a b k => get c r a b k s
  | OPut r t k v => (None, put c r t k v s)
  | ORemove k => (None, snd (remove k s))
  | OClear => (None, clear s)
  end.
(** the cache after a list of calls *)
Fixpoint after (c : ccfg) (os : list cop) (s : cache) : cache := match os with [] => s | o :: os' => after c os' (snd (exec c o s)) end.

(** ** Concurrent calls
    The first level locks one entry at a time, the second level is behind a lock that is taken for one access: each access is one step. *)
(** what happens to the entry after room was made: IM:448 or IM:200-204 *)
Inductive goal := ForPut | ForPromote (result : text).
(** the positions inside the calls, with the line that runs next *)
Inductive task :=
| TPut (now : Z) (k v : text)                                                                    (* IM:443 *)
| TEvict (vs : list text) (k : text) (e : centry) (g : goal)                                     (* IM:269-270 *)
| TRoom (d : text) (de : centry) (vs : list text) (k : text) (e : centry) (g : goal)             (* IM:222-228 *)
| TDemote (d : text) (de : centry) (vs : list text) (k : text) (e : centry) (g : goal)           (* IM:235-236 *)
| TDrop (d : text) (vs : list text) (k : text) (e : centry) (g : goal)                           (* IM:240 *)
| TInsert (k : text) (e : centry) (g : goal)                                                     (* IM:200, 448 *)
| TUnlist (k : text) (result : text)                                                             (* IM:203-204 *)
| TGet (now1 now2 : Z) (k : text)                                                                (* IM:356 *)
| TExpired (now2 : Z) (k : text)                                                                 (* IM:373 *)
| TGet2 (now2 : Z) (k : text)                                                                    (* IM:379 *)
| TPromote (k : text) (e : centry) (result : text)                                               (* IM:191 *)
| TRemove1 (k : text) | TRemove2 (k : text)                                                      (* IM:466, 469 *)
| TClear1 | TClear2                                                                              (* IM:507, 510 *)
| TDone (result : option text).
(** one step of a task on the two levels, IM:185-279 and 349-516 *)
Definition tstep (c : ccfg) (r : ranking) (x : task) (m1 m2 : list (text * centry)) : option (task * list (text * centry) * list (text * centry)) :=
  let start k e g := if cc_max1 c <=? length m1 then TEvict (firstn (evict_count (length m1)) (r m1)) k e g else TInsert k e g in
  match x with
  | TPut now k v => Some (start k (mkCentry v now 1 (cc_ttl c)) ForPut, m1, m2)
  | TEvict [] k e g => Some (TInsert k e g, m1, m2)
  | TEvict (d :: vs) k e g =>
      match aget d m1 with
      | None => Some (TEvict vs k e g, m1, m2)
      | Some de => Some (if 1 <? ce_count de then TRoom d de vs k e g else TEvict vs k e g, adel d m1, m2)
      end
  | TRoom d de vs k e g => Some (TDemote d de vs k e g, m1, if cc_max2 c <=? length m2 then evict2 r m2 else m2)
  | TDemote d de vs k e g => Some (TDrop d vs k e g, m1, aput d de m2)
  | TDrop d vs k e g => Some (TEvict vs k e g, adel d m1, m2)
  | TInsert k e ForPut => Some (TDone None, aput k e m1, m2)
  | TInsert k e (ForPromote v) => Some (TUnlist k v, aput k e m1, m2)
  | TUnlist k v => Some (TDone (Some v), m1, adel k m2)
  | TGet a b k =>
      match aget k m1 with
      | Some e => if entry_valid a e then Some (TDone (Some (ce_value e)), aput k (mark e) m1, m2) else Some (TExpired b k, m1, m2)
      | None => Some (TGet2 b k, m1, m2)
      end
  | TExpired b k => Some (TGet2 b k, adel k m1, m2)
  | TGet2 b k =>
      match aget k m2 with
      | Some e =>
          if entry_valid b e then
            if cc_promote c <=? ce_count (mark e) then Some (TPromote k (mark e) (ce_value e), m1, adel k m2)
            else Some (TDone (Some (ce_value e)), m1, aput k (mark e) m2)
          else Some (TDone None, m1, adel k m2)
      | None => Some (TDone None, m1, m2)
      end
  | TPromote k e v => Some (start k (mark e) (ForPromote v), m1, m2)
  | TRemove1 k => Some (TRemove2 k, adel k m1, m2)
  | TRemove2 k => Some (TDone None, m1, adel k m2)
  | TClear1 => Some (TClear2, [], m2)
  | TClear2 => Some (TDone None, m1, [])
  | TDone _ => None
  end.
(** the tasks that share the cache of IM:98-121 *)
Record system := mkSystem { y_tasks : list task; y_l1 : list (text * centry); y_l2 : list (text * centry) }.
(** a list with one position changed: a helper of [sstep] *)
Definition set_nth {A} (i : nat) (x : A) (l : list A) : list A := firstn i l ++ x :: skipn (S i) l.
(** a step of one task *)
Definition sstep (c : ccfg) (r : ranking) (i : nat) (y : system) : option system :=
  match nth_error (y_tasks y) i with
  | None => None
  | Some x => match tstep c r x (y_l1 y) (y_l2 y) with Some (x', m1, m2) => Some (mkSystem (set_nth i x' (y_tasks y)) m1 m2) | None => None end
  end.
(** a schedule: which task moves, with the priorities at that moment *)
Fixpoint srun (c : ccfg) (l : list (nat * ranking)) (y : system) : option system :=
  match l with [] => Some y | (i, r) :: l' => match sstep c r i y with Some y' => srun c l' y' | None => None end end.
