(** Properties C123 to C129: the cache of package definitions. *)
From Verif Require Import Base Base_lemmas Maps Codec Defs_model Defs_spec Defs_proofs.
From Coq Require Import Lia.
Open Scope string_scope. Open Scope list_scope.

(** ** Surroundings for the examples *)
(** A writer and reader that meet what the theorems ask of the JSON library. *)
Definition entry_codec : codec dentry.
Proof.
  refine (iso_codec (pair_codec text_codec (pair_codec text_codec (pair_codec text_codec (pair_codec bin_codec (pair_codec text_codec (pair_codec bin_codec (option_codec bin_codec)))))))
    (fun e => (d_name e, (d_version e, (d_path e, (d_mtime e, (d_data e, (d_cached e, d_ttl e)))))))
    (fun x => let '(a, (b, (c, (d, (e, (f, g)))))) := x in mkDentry a b c d e f g) _).
  intros [a b c d e f g]. reflexivity.
Defined.
Definition wr (e : dentry) : option text := Some (seal (enc entry_codec e)).
Definition rd (t : text) : option dentry := match unseal t with Some u => read_all entry_codec u | None => None end.
Lemma wr_reads_back : reads_back wr rd.
Proof. intros e t H. unfold wr in H. apply (f_equal (fun o => match o with Some x => x | None => [] end)) in H. subst t. unfold rd. rewrite unseal_seal. apply read_all_enc. Qed.
Lemma wr_rejects_cut : rejects_cut wr rd.
Proof. intros e t n H L. unfold wr in H. apply (f_equal (fun o => match o with Some x => x | None => [] end)) in H. subst t. unfold rd. rewrite unseal_cut by exact L. reflexivity. Qed.
(** A hash that tells the paths of the examples apart, and one that does not. *)
Definition hs (p : text) : N := N.modulo (fold_left (fun a c => a * 256 + code c)%N p 0%N) (2 ^ 64).
Definition hz (p : text) : N := 7.
Lemma hs64 : hash64 hs.
Proof. intros p. apply N.mod_lt. discriminate. Qed.
Lemma hz64 : hash64 hz.
Proof. intros p. reflexivity. Qed.
Definition pa : text := T "/a". Definition pb : text := T "/b".
(** Files with time in milliseconds and content, the clock in milliseconds, calls that succeed. *)
Definition ms (z : Z) : Z := (z * 1000000)%Z.
Definition files (l : list (text * (Z * text))) (p : text) : option (Z * text) := match aget p l with Some (m, c) => Some (ms m, c) | None => None end.
Definition world (now : Z) (l : list (text * (Z * text))) : dworld := mkDworld (ms now) (files l) true (fun _ => true) WDone (Some (fun x => x)).
Definition writing (o : wout) (w : dworld) : dworld := mkDworld (dw_now w) (dw_file w) (dw_read w) (dw_remove w) o (dw_order w).
Definition one (m : Z) (c : string) : list (text * (Z * text)) := [(pa, (m, T c))].
Definition pack (w : dworld) (data : string) : dop := DPutPackage w pa (T "a") (T "1") (T data).
Definition hour : option Z := Some (ms 3600000).
Definition answers (hash : text -> N) (ttl : option Z) (os : list dop) : list dres := fst (frun wr rd hash ttl os (reopened [])).
Definition seen (r : dres) : option text := match r with RFound (Some e) => Some (d_data e) | _ => None end.

(** ** C123 *)
(** A file that is written twice within a second keeps its old definition, for ever without a time to live. *)
Theorem C123_refuted : exists os w, last os DRestart = DGet w pa /\ (forall o, In o os -> honest (fun c => c) o /\ smooth o) /\ dw_file w pa = Some (ms 1900, T "new") /\
  map seen (answers hs None os) = [None; Some (T "old")].
Proof.
  exists [pack (world 1500 (one 1000 "old")) "old"; DGet (world 999999999 (one 1900 "new")) pa], (world 999999999 (one 1900 "new")). split; [reflexivity|]. split; [|split; [reflexivity|vm_compute; reflexivity]].
  intros o [<-|[<-|[]]]; (split; [|intros w [= <-]; repeat split; exists (fun x => x); split; [reflexivity|apply Permutation_refl]]); [|exact I]. exists (ms 1000), (T "old"). split; reflexivity.
Qed.
Print Assumptions C123_refuted.
(** So does a file that changed between the moment its definition was read and the moment it was stored, however far apart the changes: [put_package] takes the time of the file when it stores. *)
Theorem C123_race_refuted : exists os w, last os DRestart = DGet w pa /\ spaced os /\ (forall o, In o os -> smooth o) /\ dw_file w pa = Some (ms 90000, T "new") /\ map seen (answers hs None os) = [None; Some (T "old")].
Proof.
  exists [pack (world 95000 (one 90000 "new")) "old"; DGet (world 999999999 (one 90000 "new")) pa], (world 999999999 (one 90000 "new")). split; [reflexivity|]. split; [|split; [|split; [reflexivity|vm_compute; reflexivity]]].
  - assert (F : forall o w p m c, In o [pack (world 95000 (one 90000 "new")) "old"; DGet (world 999999999 (one 90000 "new")) pa] -> world_of o = Some w -> dw_file w p = Some (m, c) -> c = T "new").
    { intros o w p m c [<-|[<-|[]]] [= <-]; cbn [dw_file world]; unfold files, one; cbn [aget]; (destruct (text_eqb p pa); intros H; [injection H as _ <-; reflexivity|discriminate H]). }
    intros o o' w w' p m m' c c' A B C D E G _. rewrite (F _ _ _ _ _ A C E), (F _ _ _ _ _ B D G). reflexivity.
  - intros o [<-|[<-|[]]]; intros w [= <-]; repeat split; exists (fun x => x); (split; [reflexivity|apply Permutation_refl]).
Qed.
Print Assumptions C123_race_refuted.
(** Two paths with the same hash: the definition of one package is returned for the other, whose file is just as old. *)
Theorem C123_collision_refuted : exists os w, last os DRestart = DGet w pb /\ spaced os /\ (forall o, In o os -> honest (fun c => c) o /\ smooth o) /\ dw_file w pb = Some (ms 1000, T "bbb") /\ map seen (answers hz None os) = [None; Some (T "aaa")].
Proof.
  set (fs := [(pa, (1000, T "aaa")); (pb, (1000, T "bbb"))]%Z). exists [pack (world 1500 fs) "aaa"; DGet (world 1600 fs) pb], (world 1600 fs). split; [reflexivity|]. split; [|split; [|split; [reflexivity|vm_compute; reflexivity]]].
  - intros o o' w w' p m m' c c' A B C D E G _. assert (K : dw_file w p = dw_file w' p).
    { destruct A as [<-|[<-|[]]], B as [<-|[<-|[]]]; injection C as <-; injection D as <-; reflexivity. } congruence.
  - intros o [<-|[<-|[]]]; (split; [|intros w [= <-]; repeat split; exists (fun x => x); split; [reflexivity|apply Permutation_refl]]); [|exact I]. exists (ms 1000), (T "aaa"). split; reflexivity.
Qed.
Print Assumptions C123_collision_refuted.
(** If definitions are stored as they are in the files, no file changes twice within a second and no two paths share a hash, then what a lookup returns is the definition in the file at that moment:
    in any history, with failing, cut short and refused writes, removals, clears and restarts. *)
Theorem C123_fresh_partial : forall write read hash ttl def os k w p e, reads_back write read -> rejects_cut write read -> hash64 hash -> no_collision hash (uses os) -> spaced os -> (forall o, In o os -> honest def o) ->
  nth_error os k = Some (DGet w p) -> nth_error (fst (frun write read hash ttl os (reopened []))) k = Some (RFound (Some e)) -> exists m x, dw_file w p = Some (m, x) /\ d_data e = def x.
Proof.
  intros write read hash ttl def os k w p e RB RC H NC S Ho A B.
  apply (fresh_run write read hash ttl def os S (uses os) H NC RB RC os (reopened []) k w p e (fun q Hq => Hq) (fun x Hx => Hx) Ho); [|exact A|exact B].
  split; [intros q x F; discriminate F|intros q t x _ F; discriminate F].
Qed.
Print Assumptions C123_fresh_partial.
Example C123_example : let os := [pack (world 1500 (one 1000 "old")) "old"; DGet (world 1600 (one 1000 "old")) pa; DRestart; DGet (world 1700 (one 1000 "old")) pa; DGet (world 9100 (one 9000 "new")) pa; pack (writing (WCut 3) (world 9200 (one 9000 "new"))) "new"; DGet (world 9300 (one 9000 "new")) pa; DRestart; DGet (world 9400 (one 9000 "new")) pa] in
  reads_back wr rd /\ rejects_cut wr rd /\ hash64 hs /\ no_collision hs (uses os) /\ (forall o, In o os -> honest (fun c => c) o) /\ spaced os /\
  map seen (answers hs None os) = [None; Some (T "old"); None; Some (T "old"); None; None; Some (T "new"); None; None].
Proof.
  intros os. split; [exact wr_reads_back|]. split; [exact wr_rejects_cut|]. split; [exact hs64|]. split; [|split; [|split; [|vm_compute; reflexivity]]].
  - assert (U : forall q, uses os q -> q = pa) by (intros q (o & H & E); repeat (destruct H as [<-|H]; [(discriminate E || (injection E as <-; reflexivity))|]); destruct H).
    intros p q Hp Hq _. rewrite (U p Hp), (U q Hq). reflexivity.
  - intros o H. repeat (destruct H as [<-|H]; [exact I || (cbn; eexists; eexists; split; reflexivity)|]). destruct H.
  - assert (F : forall o w p m c, In o os -> world_of o = Some w -> dw_file w p = Some (m, c) -> (m = ms 1000 /\ c = T "old") \/ (m = ms 9000 /\ c = T "new")).
    { intros o w p m c H E G. repeat (destruct H as [<-|H]; [discriminate E || (injection E as <-; cbn [dw_file world writing] in G; unfold files, one in G; cbn [aget] in G; destruct (text_eqb p pa); [injection G as <- <-; auto|discriminate G])|]). destruct H. }
    intros o o' w w' p m m' c c' A B C D E G K. destruct (F _ _ _ _ _ A C E) as [[-> ->]|[-> ->]], (F _ _ _ _ _ B D G) as [[-> ->]|[-> ->]]; try reflexivity; vm_compute in K; discriminate K.
Qed.

(** ** C124 *)
(** A lookup returns an entry only while its file is there with the recorded time (to the second) and while the entry lives, in any history of operations. *)
Theorem C124_only : forall write read hash ttl os c k w p e, nth_error os k = Some (DGet w p) -> nth_error (fst (frun write read hash ttl os c)) k = Some (RFound (Some e)) -> current w p e.
Proof. exact frun_get. Qed.
Print Assumptions C124_only.
(** And it returns what was stored as long as that holds and nothing else was done to the path, whether or not the file of the cache could be written. *)
Theorem C124_until : forall write read hash ttl c w p e os w', let e' := mkDentry (d_name e) (d_version e) (d_path e) (d_mtime e) (d_data e) (d_cached e) (match d_ttl e with Some t => Some t | None => ttl end) in
  (forall o, In o os -> leaves p e' o) -> current w' p e' ->
  exists r rs, fst (frun write read hash ttl (DPut w p e :: os ++ [DGet w' p]) c) = r :: rs ++ [RFound (Some e')] /\ length rs = length os.
Proof.
  intros write read hash ttl c w p e os w' e' L C. cbn [frun fexec]. rewrite with_ttl_eq. fold e'.
  pose proof (fput_mem write hash w p e' c) as M. destruct (fput write hash w p e' c) as [b c1]. cbn [snd] in M.
  rewrite frun_app. pose proof (leaves_run write read hash ttl os p e' c1 L M) as K. pose proof (frun_length write read hash ttl os c1) as N. destruct (frun write read hash ttl os c1) as [rs c2]. cbn [snd fst] in K, N.
  cbn [frun fexec]. rewrite (fget_mem read hash w' p c2 e' K C). exists (ok_if b ROk), rs. split; [reflexivity|exact N].
Qed.
Print Assumptions C124_until.
Example C124_example : let e := mkDentry (T "a") (T "1") pa (ms 1000) (T "old") (ms 1500) None in let os := [DGet (world 2000 (one 1000 "old")) pa; DRemove (world 2100 []) pb] in
  (forall o, In o os -> leaves pa (mkDentry (T "a") (T "1") pa (ms 1000) (T "old") (ms 1500) hour) o) /\ current (world 3601500 (one 1999 "x")) pa (mkDentry (T "a") (T "1") pa (ms 1000) (T "old") (ms 1500) hour) /\
  ~ current (world 3601501 (one 1000 "old")) pa (mkDentry (T "a") (T "1") pa (ms 1000) (T "old") (ms 1500) hour) /\
  map seen (answers hs hour (DPut (world 1500 (one 1000 "old")) pa e :: os ++ [DGet (world 3601500 (one 1999 "x")) pa; DGet (world 3601501 (one 1999 "x")) pa])) = [None; Some (T "old"); None; Some (T "old"); None] /\
  map seen (answers hs None (DPut (world 1500 (one 1000 "old")) pa e :: os ++ [DGet (world 3601500 (one 2000 "x")) pa])) = [None; Some (T "old"); None; None].
Proof.
  intros e os. split; [|split; [|split; [|split; vm_compute; reflexivity]]].
  - intros o [<-|[<-|[]]]; cbn; [|discriminate]. intros _. apply usable_current. vm_compute. reflexivity.
  - apply usable_current. vm_compute. reflexivity.
  - apply usable_not. vm_compute. reflexivity.
Qed.

(** ** C125 *)
(** A write that fails leaves the old entry in the file: after a restart the lookup answers with what had been replaced, here a definition put by hand for the same state of the file. *)
Theorem C125_refuted : exists os w, map seen (answers hs None (os ++ [DGet w pa])) = [None; None; Some (T "two")] /\ map seen (answers hs None (os ++ [DRestart; DGet w pa])) = [None; None; None; Some (T "one")].
Proof.
  exists [pack (world 1500 (one 1000 "x")) "one"; pack (writing WRefused (world 1600 (one 1000 "x"))) "two"], (world 1700 (one 1000 "x")). split; vm_compute; reflexivity.
Qed.
Print Assumptions C125_refuted.
(** An entry that cannot be written, as one of a file from before 1970, is lost with the process. *)
Theorem C125_unwritable_refuted : exists write read os w, reads_back write read /\ map seen (fst (frun write read hs None (os ++ [DGet w pa]) (reopened []))) = [None; Some (T "x")] /\
  map seen (fst (frun write read hs None (os ++ [DRestart; DGet w pa]) (reopened []))) = [None; None; None].
Proof.
  exists (fun e => if (d_mtime e <? 0)%Z then None else wr e), rd, [pack (world 1500 (one (-5) "x")) "x"], (world 1700 (one (-5) "x")). split; [|split; vm_compute; reflexivity].
  intros e t H. apply wr_reads_back. destruct (d_mtime e <? 0)%Z; [discriminate H|exact H].
Qed.
Print Assumptions C125_unwritable_refuted.
(** If every entry can be written and is, and no two paths in use share a hash, then a lookup answers the same with and without a restart before it. *)
Theorem C125_restart_partial : forall write read hash ttl os w p, reads_back write read -> hash64 hash -> no_collision hash (uses os) -> (forall o w, In o os -> world_of o = Some w -> dw_write w = WDone) ->
  (forall o, In o os -> writable write ttl o) -> dw_read w = true -> let c := snd (frun write read hash ttl os (reopened [])) in
  fst (fexec write read hash ttl (DGet w p) (snd (fexec write read hash ttl DRestart c))) = fst (fexec write read hash ttl (DGet w p) c).
Proof.
  intros write read hash ttl os w p RB H NC D W R c.
  assert (C : synced read hash (uses os) c) by (apply (synced_run write read hash ttl (uses os) H NC RB os (reopened []) (fun q Hq => Hq) D W); apply synced_new).
  cbn [fexec snd]. destruct (fget_reopened read hash (uses os) w p c C) as [E|E]; [|congruence]. destruct (fget read hash w p (reopened (c_dir c))) as [r c1], (fget read hash w p c) as [r' c2]. cbn in E. subst. reflexivity.
Qed.
Print Assumptions C125_restart_partial.
Example C125_example : let os := [pack (world 1500 (one 1000 "x")) "one"; DGet (world 1600 (one 1000 "x")) pa] in let w := world 1700 (one 1000 "x") in
  reads_back wr rd /\ hash64 hs /\ no_collision hs (uses os) /\ (forall o w, In o os -> world_of o = Some w -> dw_write w = WDone) /\ (forall o, In o os -> writable wr None o) /\ dw_read w = true /\
  map seen (answers hs None (os ++ [DRestart; DGet w pa; DGet w pa])) = [None; Some (T "one"); None; Some (T "one"); Some (T "one")].
Proof.
  intros os w. split; [exact wr_reads_back|]. split; [exact hs64|]. split; [|split; [|split; [|split; [reflexivity|vm_compute; reflexivity]]]].
  - assert (U : forall q, uses os q -> q = pa) by (intros q (o & [<-|[<-|[]]] & [= <-]); reflexivity). intros p q Hp Hq _. rewrite (U p Hp), (U q Hq). reflexivity.
  - intros o w' [<-|[<-|[]]] [= <-]; reflexivity.
  - intros o [<-|[<-|[]]]; [discriminate|exact I].
Qed.

(** ** C126 *)
(** A write that is cut short makes every later lookup of the path fail in later processes, until something is stored for it, it is removed or the cache is cleared. *)
Theorem C126_refuted : exists os, map (fun r => match r with RErr => true | _ => false end) (answers hs None os) = [true; false] /\
  forall gets k w, (forall o, In o gets -> exists w q, o = DGet w q) -> no_collision hs (fun q => q = pa \/ uses gets q) -> nth_error gets k = Some (DGet w pa) -> nth_error (answers hs None (os ++ gets)) (2 + k) = Some RErr.
Proof.
  exists [pack (writing (WCut 3) (world 1500 (one 1000 "x"))) "x"; DRestart]. split; [vm_compute; reflexivity|]. intros gets k w G NC N. unfold answers. rewrite frun_app.
  set (os := [pack (writing (WCut 3) (world 1500 (one 1000 "x"))) "x"; DRestart]).
  assert (E : frun wr rd hs None os (reopened []) = ([RErr; ROk], mkDcache new_dmem [(file_of hs pa, DFile (T "111"))])) by (vm_compute; reflexivity). rewrite E.
  pose proof (stuck_run wr rd hs None pa (T "111") gets (mkDcache new_dmem [(file_of hs pa, DFile (T "111"))]) k w G eq_refl) as K.
  destruct (frun wr rd hs None gets (mkDcache new_dmem [(file_of hs pa, DFile (T "111"))])) as [rs c]. cbn [fst app nth_error Nat.add] in *. apply K; [|vm_compute; reflexivity|exact NC|exact hs64|exact N].
  cbn [c_dir aget]. rewrite text_eqb_refl. reflexivity.
Qed.
Print Assumptions C126_refuted.
(** In a directory of its own, with calls that succeed and entries that can be written, nothing fails. *)
Theorem C126_works_partial : forall write read hash ttl os, reads_back write read -> hash64 hash -> no_collision hash (uses os) -> (forall o, In o os -> smooth o /\ writable write ttl o) ->
  ~ In RErr (fst (frun write read hash ttl os (reopened []))).
Proof.
  intros write read hash ttl os RB H NC Sm. apply (smooth_run write read hash ttl (uses os) H NC RB os (reopened []) (fun q Hq => Hq) Sm); [apply synced_new|constructor].
Qed.
Print Assumptions C126_works_partial.
Example C126_example : let os := [pack (world 1500 (one 1000 "x")) "one"; DGet (world 1600 (one 9000 "x")) pa; DClear (world 1700 []); DInvalidate (world 1700 []); DRemove (world 1800 []) pb] in
  no_collision hs (uses os) /\ (forall o, In o os -> smooth o /\ writable wr None o) /\ answers hs None os = [ROk; RFound None; ROk; RCount 0; ROk].
Proof.
  intros os. split; [|split; [|vm_compute; reflexivity]].
  - assert (U : forall q, uses os q -> q = pa \/ q = pb) by (intros q (o & H & E); repeat (destruct H as [<-|H]; [try discriminate E; injection E as <-; auto|]); destruct H).
    intros p q Hp Hq. destruct (U p Hp) as [->| ->], (U q Hq) as [->| ->]; intros E; try reflexivity; vm_compute in E; discriminate E.
  - intros o H. split; [intros w E|]; repeat (destruct H as [<-|H]; [try (injection E as <-; repeat split; exists (fun x => x); split; [reflexivity|apply Permutation_refl]); exact I || discriminate|]); destruct H.
Qed.

(** ** C127 *)
(** A lookup that finds nothing current counts as a hit and as a miss; one that is answered from a file counts as a miss and as a store. *)
Theorem C127_refuted : (exists os, let '(rs, m) := mrun None os new_dmem in count found rs = 0 /\ st_hits (m_stats m) = 1 /\ st_misses (m_stats m) = 1) /\
  (exists os c, let '(rs, c') := frun wr rd hs None os (reopened (c_dir c)) in map seen rs = [Some (T "x")] /\ st_hits (m_stats (c_mem c')) = 0 /\ st_misses (m_stats (c_mem c')) = 1 /\ st_puts (m_stats (c_mem c')) = 1).
Proof.
  split.
  - exists [pack (world 1500 (one 1000 "x")) "x"; DGet (world 1600 (one 5000 "x")) pa]. vm_compute. auto.
  - exists [DGet (world 1600 (one 1000 "x")) pa], (snd (frun wr rd hs None [pack (world 1500 (one 1000 "x")) "x"] (reopened []))). vm_compute. auto.
Qed.
Print Assumptions C127_refuted.
(** In memory, misses, stores, removals and clears are counted exactly, and hits are at least the lookups that found something and at most the lookups. *)
Theorem C127_memory_partial : forall ttl os, count is_restart os = 0 -> let '(rs, m) := mrun ttl os new_dmem in let s := m_stats m in
  st_misses s = count missed rs /\ count found rs <= st_hits s <= count is_get os /\ st_puts s = count is_put os /\ st_removes s = count is_remove os /\ st_clears s = count is_clear os.
Proof. intros ttl os R. pose proof (mrun_counts ttl os new_dmem R) as K. destruct (mrun ttl os new_dmem) as [rs m]. cbn in K. cbv zeta. lia. Qed.
Print Assumptions C127_memory_partial.
(** With files, the lookups that found something are the lookups without the misses, and the stores that no caller made. *)
Theorem C127_files_partial : forall write read hash ttl os d, count is_restart os = 0 -> let '(rs, c) := frun write read hash ttl os (reopened d) in let s := m_stats (c_mem c) in
  count found rs + st_misses s + count is_put os = count is_get os + st_puts s /\ st_removes s = count is_remove os /\ st_clears s = count is_clear os.
Proof. intros write read hash ttl os d R. pose proof (frun_counts write read hash ttl os (reopened d) R) as K. destruct (frun write read hash ttl os (reopened d)) as [rs c]. cbn in K. cbv zeta. lia. Qed.
Print Assumptions C127_files_partial.
Example C127_example : let os := [pack (world 1500 (one 1000 "x")) "x"; DGet (world 1600 (one 1000 "x")) pa; DGet (world 1600 []) pb; DRemove (world 1600 []) pa; DClear (world 1700 [])] in
  count is_restart os = 0 /\ m_stats (snd (mrun None os new_dmem)) = mkDstats 1 1 1 1 1 /\ m_stats (c_mem (snd (frun wr rd hs None os (reopened [])))) = mkDstats 1 1 1 1 1.
Proof. vm_compute. auto. Qed.

(** ** C128 *)
(** Clearing removes every file with the extension of the cache, also those of others; [invalidate_stale] does the same, drops entries that are not stale and reports none. *)
Theorem C128_refuted : exists c w, dw_file w pa = Some (ms 1000, T "x") /\ aget (T "mine.json") (c_dir c) = Some (DFile (T "data")) /\ fst (fexec wr rd hs None (DGet w pa) c) <> RFound None /\
  fst (fexec wr rd hs None (DInvalidate w) c) = RCount 0 /\ let c' := snd (fexec wr rd hs None (DInvalidate w) c) in aget (T "mine.json") (c_dir c') = None /\ fst (fexec wr rd hs None (DGet w pa) c') = RFound None.
Proof.
  exists (snd (frun wr rd hs None [pack (world 1500 (one 1000 "x")) "x"] (reopened [(T "mine.json", DFile (T "data"))]))), (world 1600 (one 1000 "x")). split; [reflexivity|]. split; [vm_compute; reflexivity|].
  split; [intros E; vm_compute in E; discriminate E|]. split; [vm_compute; reflexivity|]. split; vm_compute; reflexivity.
Qed.
Print Assumptions C128_refuted.
(** A clear that succeeds leaves nothing to be found, in memory or after a restart, and keeps all files without the extension. *)
Theorem C128_clear_partial : forall write read hash ttl w c, (forall ord, dw_order w = Some ord -> forall l, Permutation (ord l) l) -> let '(r, c') := fexec write read hash ttl (DClear w) c in r = ROk ->
  (forall w' p, fst (fexec write read hash ttl (DGet w' p) c') = RFound None) /\ (forall w' p, fst (fexec write read hash ttl (DGet w' p) (snd (fexec write read hash ttl DRestart c'))) = RFound None) /\
  (forall n, ends_with (T ".json") n = false -> aget n (c_dir c') = aget n (c_dir c)).
Proof.
  intros write read hash ttl w c P. cbn [fexec]. pose proof (fclear_empty w c P) as K. destruct (fclear w c) as [b c'] eqn:E. cbn [fst snd] in K. destruct b; [|discriminate]. intros _. destruct (K eq_refl) as (A & B & C).
  assert (G : forall c0, m_store (c_mem c0) = [] -> c_dir c0 = c_dir c' -> forall w' p, fst (fexec write read hash ttl (DGet w' p) c0) = RFound None).
  { intros c0 M D w' p. cbn [fexec]. pose proof (fget_empty read hash w' p c0) as F. rewrite M, D, (B _ (file_of_json hash p)) in F. specialize (F eq_refl eq_refl). destruct (fget read hash w' p c0) as [r x]. cbn in F. subst. reflexivity. }
  split; [apply G; [exact A|reflexivity]|]. split; [apply G; reflexivity|]. intros n J. apply C. unfold json_name. rewrite J. reflexivity.
Qed.
Print Assumptions C128_clear_partial.
(** In memory the clear always succeeds. *)
Theorem C128_memory_partial : forall ttl w m, fst (mexec ttl (DClear w) m) = ROk /\ forall w' p, fst (mexec ttl (DGet w' p) (snd (mexec ttl (DClear w) m))) = RFound None.
Proof. intros ttl w m. split; reflexivity. Qed.
Print Assumptions C128_memory_partial.
Example C128_example : let c := snd (frun wr rd hs None [pack (world 1500 (one 1000 "x")) "x"] (reopened [(T "notes.txt", DFile (T "data")); (T ".json", DFile (T "data"))])) in
  let '(r, c') := fexec wr rd hs None (DClear (world 1600 [])) c in r = ROk /\ akeys (c_dir c) = [T "notes.txt"; T ".json"; file_of hs pa] /\ akeys (c_dir c') = [T "notes.txt"; T ".json"].
Proof. vm_compute. auto. Qed.

(** ** C129 *)
(** A lookup that found an entry out of date removes whatever is there when it comes to it: an entry that another thread stored in between is lost, though in every order of whole operations it stays. *)
Definition old_entry : dentry := mkDentry (T "a") (T "1") pa (ms 1000) (T "old") (ms 1000) None.
Definition new_entry : dentry := mkDentry (T "a") (T "1") pa (ms 9000) (T "new") (ms 9000) None.
Theorem C129_refuted : exists ts st w, ts = [[TGet w pa]; [TPut pa new_entry]] /\ current w pa new_entry /\
  (exists sched, let '(_, todo, st') := trun sched ts st in todo = [[]; []] /\ aget pa st' = None) /\
  (forall sched, In sched [[0; 0; 1]; [1; 0; 0]] -> let '(_, todo, st') := trun sched ts st in todo = [[]; []] /\ aget pa st' = Some new_entry).
Proof.
  exists [[TGet (world 9500 (one 9000 "new")) pa]; [TPut pa new_entry]], [(pa, old_entry)], (world 9500 (one 9000 "new")). split; [reflexivity|]. split; [apply usable_current; vm_compute; reflexivity|]. split.
  - exists [0; 1; 0]. vm_compute. split; reflexivity.
  - intros sched [<-|[<-|[]]]; vm_compute; split; reflexivity.
Qed.
Print Assumptions C129_refuted.
(** Under every schedule, what a lookup returns was stored for its path and is current where it looked, and the store holds only what was stored. *)
Theorem C129_safe_partial : forall sched ts st, let '(rs, _, st') := trun sched ts st in
  (forall i a e, In (i, a, Some e) rs -> exists w p, a = TGet w p /\ current w p e /\ (thread_puts ts p e \/ aget p st = Some e)) /\
  (forall p e, aget p st' = Some e -> thread_puts ts p e \/ aget p st = Some e).
Proof.
  intros sched ts st. pose proof (threads_safe (fun p e => thread_puts ts p e \/ aget p st = Some e) sched ts st) as K. destruct (trun sched ts st) as [[rs ts'] st']. cbn [fst snd] in K.
  apply K; [intros t p e Ht He; left; exists t; auto|auto].
Qed.
Print Assumptions C129_safe_partial.
(** If no lookup finds the entries of a path out of date and no thread removes them, the path stays in the store under every schedule. *)
Theorem C129_kept_partial : forall p good sched ts st, (forall t a, In t ts -> In a t -> harmless p good a) -> (exists e, aget p st = Some e /\ good e) -> let '(_, _, st') := trun sched ts st in exists e, aget p st' = Some e /\ good e.
Proof. intros p good sched ts st A B. pose proof (threads_keep p good sched ts st A B) as K. destruct (trun sched ts st) as [[rs ts'] st']. exact K. Qed.
Print Assumptions C129_kept_partial.
Example C129_example : let w := world 9500 (one 9000 "new") in let ts := [[TGet w pa; TGet w pb]; [TPut pa new_entry; TRemove pb]; [TPut pb old_entry]] in
  (forall t a, In t ts -> In a t -> harmless pa (fun e => e = new_entry) a) /\ fst (fst (trun [1; 2; 0; 0; 1; 0] ts [(pa, old_entry)])) = [(0, TGet w pa, Some new_entry); (0, TDrop pb, None)].
Proof.
  intros w ts. split; [|vm_compute; reflexivity]. intros t a Ht Ha.
  repeat (destruct Ht as [<-|Ht]; [repeat (destruct Ha as [<-|Ha]; [cbn; try discriminate; try reflexivity; try (intros E; discriminate E); try (intros _ e ->; apply usable_current; vm_compute; reflexivity)|]); destruct Ha|]). destruct Ht.
Qed.
