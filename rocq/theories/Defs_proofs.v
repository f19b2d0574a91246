(** Proofs about the cache of package definitions. *)
From Verif Require Import Base Base_lemmas Maps Defs_model Defs_spec.
Open Scope string_scope.
Open Scope list_scope.

(** ** Validity *)
Lemma moved_close a b : moved a b || moved b a = false <-> close a b.
Proof.
  unfold moved, close. change SEC with 1000000000%Z.
  assert (D : forall x, (0 <= x)%Z -> ((0 <? x / 1000000000) = true <-> 1000000000 <= x)%Z).
  { intros x Hx. rewrite Z.ltb_lt. split; intro H.
    - pose proof (Z.mul_div_le x 1000000000 ltac:(lia)). lia.
    - pose proof (Z.div_le_mono 1000000000 x 1000000000 ltac:(lia) H) as K. rewrite Z.div_same in K; lia. }
  destruct (Z.leb_spec b a) as [L|L], (Z.leb_spec a b) as [M|M]; cbn [andb orb].
  - assert (a = b) by lia. subst. rewrite Z.sub_diag. cbn. split; intros; lia.
  - rewrite Bool.orb_false_r. specialize (D (a - b)%Z ltac:(lia)). destruct (0 <? _)%Z; split; intro H; try discriminate; try reflexivity; destruct D as [D1 D2].
    + specialize (D1 eq_refl). lia.
    + destruct (Z.lt_ge_cases (a - b) 1000000000); [lia|]. specialize (D2 ltac:(lia)). discriminate.
  - specialize (D (b - a)%Z ltac:(lia)). destruct (0 <? _)%Z; split; intro H; try discriminate; try reflexivity; destruct D as [D1 D2].
    + specialize (D1 eq_refl). lia.
    + destruct (Z.lt_ge_cases (b - a) 1000000000); [lia|]. specialize (D2 ltac:(lia)). discriminate.
  - lia.
Qed.
Lemma dvalid_alive now e m : dvalid now e m = true <-> close m (d_mtime e) /\ alive now e.
Proof.
  unfold dvalid. rewrite <- moved_close. destruct (moved m (d_mtime e) || moved (d_mtime e) m); [split; [discriminate|intros [H _]; discriminate]|].
  unfold alive. destruct (d_ttl e) as [ttl|]; [|tauto].
  destruct (Z.leb_spec (d_cached e) now) as [L|L].
  - rewrite Bool.negb_true_iff, Z.ltb_ge. split; [intros H; split; [reflexivity|lia]|intros [_ H]; lia].
  - split; [discriminate|intros [_ H]; lia].
Qed.
Lemma usable_current w p e : usable w p e = true <-> current w p e.
Proof.
  unfold usable, dw_time, current. destruct (dw_file w p) as [[m c]|]; cbn [option_map fst].
  - rewrite dvalid_alive. split; [intros [A B]; exists m, c; auto|]. intros (m' & c' & E & A & B). injection E as -> ->. auto.
  - split; [discriminate|intros (m & c & E & _); discriminate].
Qed.
Lemma usable_not w p e : usable w p e = false <-> ~ current w p e.
Proof. rewrite <- usable_current. destruct (usable w p e); split; intros H; congruence || (exfalso; apply H; reflexivity) || auto. Qed.

(** ** Names of files *)
Lemma hex_digit_inj a b : (a < 16)%N -> (b < 16)%N -> hex_digit a = hex_digit b -> a = b.
Proof.
  intros A B. assert (C : forall n, (n < 16)%N -> N_of_ascii (hex_digit n) = if (n <? 10)%N then (48 + n)%N else (87 + n)%N).
  { intros n Hn. unfold hex_digit. destruct (n <? 10)%N eqn:E; apply N_ascii_embedding; [apply N.ltb_lt in E; lia|lia]. }
  intros H. apply (f_equal N_of_ascii) in H. rewrite !C in H by assumption. destruct (N.ltb_spec a 10), (N.ltb_spec b 10); lia.
Qed.
Lemma hexw_length k n : length (hexw k n) = k.
Proof. revert n. induction k as [|k IH]; intros n; [reflexivity|]. cbn. rewrite app_length, IH. cbn. lia. Qed.
Lemma hexw_inj k : forall a b, (a < 16 ^ N.of_nat k)%N -> (b < 16 ^ N.of_nat k)%N -> hexw k a = hexw k b -> a = b.
Proof.
  induction k as [|k IH]; intros a b A B H; [cbn in A, B; lia|].
  cbn [hexw] in H. apply app_inj_tail in H as [H1 H2].
  rewrite Nat2N.inj_succ, N.pow_succ_r' in A, B.
  assert (Q : (a / 16 = b / 16)%N).
  { apply IH; [| |exact H1]; apply N.div_lt_upper_bound; lia. }
  apply hex_digit_inj in H2; [|apply N.mod_lt; lia|apply N.mod_lt; lia].
  rewrite (N.div_mod a 16), (N.div_mod b 16) by lia. rewrite Q, H2. reflexivity.
Qed.
Lemma file_of_inj hash used p q : hash64 hash -> no_collision hash used -> used p -> used q -> file_of hash p = file_of hash q -> p = q.
Proof.
  intros H N Up Uq E. unfold file_of in E. apply app_inv_tail in E. apply N; [exact Up|exact Uq|]. apply (hexw_inj 16); [apply H|apply H|exact E].
Qed.
Lemma file_of_json hash p : json_name (file_of hash p) = true.
Proof.
  unfold json_name, file_of. apply Bool.andb_true_iff. split.
  - unfold ends_with. rewrite rev_app_distr. apply starts_with_spec. exists (rev (hexw 16 (hash p))). reflexivity.
  - apply Bool.negb_true_iff. apply text_eqb_neq. intros E. apply (f_equal (@length ascii)) in E. rewrite app_length, hexw_length in E. vm_compute in E. discriminate.
Qed.

(** ** The answers are current *)
Lemma mget_current w p m e m' : mget w p m = (Some e, m') -> aget p (m_store m) = Some e /\ current w p e.
Proof.
  unfold mget. destruct (aget p (m_store m)) as [x|]; [|discriminate]. destruct (usable w p x) eqn:U; [|discriminate].
  intros [= -> _]. split; [reflexivity|apply usable_current; exact U].
Qed.
Section Run.
Context (write : dentry -> option text) (read : text -> option dentry) (hash : text -> N) (ttl : option Z).
Notation fget := (fget read hash).
Notation fput := (fput write hash).
Notation fexec := (fexec write read hash ttl).
Notation frun := (frun write read hash ttl).
Notation file := (file_of hash).

Lemma fget_current w p c e c' : fget w p c = (Some (Some e), c') -> current w p e.
Proof.
  unfold fget. destruct (mget w p (c_mem c)) as [[x|] m] eqn:G.
  - intros [= -> _]. apply mget_current in G. apply G.
  - destruct (aget (file p) (c_dir c)) as [[t|]|]; [|discriminate|discriminate]. destruct (dw_read w); [|discriminate]. destruct (read t) as [x|]; [|discriminate].
    destruct (usable w p x) eqn:U; [|destruct (dw_remove w (file p)); discriminate]. intros [= -> _]. apply usable_current. exact U.
Qed.
Lemma frun_get os c k w p e : nth_error os k = Some (DGet w p) -> nth_error (fst (frun os c)) k = Some (RFound (Some e)) -> current w p e.
Proof.
  revert c k. induction os as [|o os IH]; intros c k; [destruct k; discriminate|].
  cbn [Defs_model.frun]. destruct (fexec o c) as [r c1] eqn:E. destruct (frun os c1) as [rs c2] eqn:F.
  destruct k as [|k]; cbn [nth_error fst].
  - intros [= ->] [= ->]. cbn [Defs_model.fexec] in E. destruct (fget w p c) as [[x|] c'] eqn:G; [|discriminate]. injection E as -> <-. exact (fget_current w p c e c' G).
  - intros A B. apply (IH c1 k A). rewrite F. exact B.
Qed.
Lemma frun_length os c : length (fst (frun os c)) = length os.
Proof. revert c. induction os as [|o os IH]; intros c; [reflexivity|]. cbn [Defs_model.frun]. destruct (fexec o c) as [r c1]. specialize (IH c1). destruct (frun os c1). cbn in *. congruence. Qed.
Lemma frun_app os os' c : frun (os ++ os') c = let '(rs, c1) := frun os c in let '(rs', c2) := frun os' c1 in (rs ++ rs', c2).
Proof.
  revert c. induction os as [|o os IH]; intros c; [cbn; destruct (frun os' c); reflexivity|].
  cbn [Defs_model.frun app]. destruct (fexec o c) as [r c1]. rewrite IH. destruct (frun os c1) as [rs c2]. destruct (frun os' c2). reflexivity.
Qed.

(** *** They are those of the file as it is *)
Section Fresh.
Context (def : text -> text) (all : list dop) (S : spaced all) (used : text -> Prop) (H64 : hash64 hash) (NC : no_collision hash used) (RB : reads_back write read) (RC : rejects_cut write read).
(** The entry is that of the file in the surroundings of some operation. *)
Definition vouched (p : text) (e : dentry) : Prop := exists o w c, In o all /\ world_of o = Some w /\ dw_file w p = Some (d_mtime e, c) /\ d_data e = def c.
Definition trusted (c : dcache) : Prop := (forall p e, aget p (m_store (c_mem c)) = Some e -> vouched p e) /\
  (forall p t e, used p -> aget (file p) (c_dir c) = Some (DFile t) -> read t = Some e -> vouched p e).
Lemma mget_store w p m r m' q e : mget w p m = (r, m') -> aget q (m_store m') = Some e -> aget q (m_store m) = Some e.
Proof.
  unfold mget. destruct (aget p (m_store m)) as [x|] eqn:E.
  - destruct (usable w p x); intros [= <- <-]; cbn [m_store]; [auto|]. destruct (text_eqb q p) eqn:Q.
    + apply text_eqb_eq in Q. subst. rewrite aget_del_same. discriminate.
    + apply text_eqb_neq in Q. rewrite aget_del_other by exact Q. auto.
  - intros [= <- <-]. auto.
Qed.
Lemma trusted_del_dir m d n : trusted (mkDcache m d) -> trusted (mkDcache m (adel n d)).
Proof.
  intros [A B]. split; [exact A|]. intros q t e Uq F R. cbn [c_dir] in F. destruct (text_eqb (file q) n) eqn:Q.
  - apply text_eqb_eq in Q. subst. rewrite aget_del_same in F. discriminate.
  - apply text_eqb_neq in Q. rewrite aget_del_other in F by exact Q. exact (B q t e Uq F R).
Qed.
Lemma trusted_get w p c : used p -> trusted c -> trusted (snd (fget w p c)).
Proof.
  intros Up [A B]. unfold fget. destruct (mget w p (c_mem c)) as [r m] eqn:G.
  assert (M : trusted (mkDcache m (c_dir c))).
  { split; [|exact B]. intros q e F. cbn [c_mem] in F. apply A. exact (mget_store w p (c_mem c) r m q e G F). }
  destruct r as [x|]; [exact M|]. destruct (aget (file p) (c_dir c)) as [[t|]|] eqn:F; [|exact M|exact M]. destruct (dw_read w); [|exact M].
  destruct (read t) as [x|] eqn:R; [|exact M]. destruct (usable w p x).
  - cbn [snd]. destruct M as [M1 M2]. split; [|exact M2]. intros q e. cbn [c_mem mput m_store]. destruct (text_eqb q p) eqn:Q.
    + apply text_eqb_eq in Q. subst. rewrite aget_put_same. intros [= <-]. exact (B p t x Up F R).
    + apply text_eqb_neq in Q. rewrite aget_put_other by exact Q. apply M1.
  - destruct (dw_remove w (file p)); cbn [snd]; [apply trusted_del_dir|]; exact M.
Qed.
Lemma trusted_put w p e c : used p -> vouched p e -> trusted c -> trusted (snd (fput w p e c)).
Proof.
  intros Up V [A B].
  assert (M1 : forall q x, aget q (m_store (mput p e (c_mem c))) = Some x -> vouched q x).
  { intros q x. cbn [mput m_store]. destruct (text_eqb q p) eqn:Q.
    - apply text_eqb_eq in Q. subst. rewrite aget_put_same. intros [= <-]. exact V.
    - apply text_eqb_neq in Q. rewrite aget_put_other by exact Q. apply A. }
  assert (M : trusted (mkDcache (mput p e (c_mem c)) (c_dir c))) by (split; [exact M1|exact B]).
  assert (P : forall t t', write e = Some t -> (t' = t \/ read t' = None) -> trusted (mkDcache (mput p e (c_mem c)) (aput (file p) (DFile t') (c_dir c)))).
  { intros t t' W O. split; [exact M1|]. intros q u x Uq F R. cbn [c_dir] in F. destruct (text_eqb (file q) (file p)) eqn:Q.
    - apply text_eqb_eq in Q. pose proof (file_of_inj hash used q p H64 NC Uq Up Q) as ->. rewrite aget_put_same in F. injection F as <-. destruct O as [->|O]; [|congruence].
      rewrite (RB e t W) in R. injection R as <-. exact V.
    - apply text_eqb_neq in Q. rewrite aget_put_other in F by exact Q. exact (B q u x Uq F R). }
  unfold Defs_model.fput. destruct (write e) as [t|] eqn:W; [|exact M].
  assert (K : trusted (snd (match dw_write w with
      | WDone => (true, mkDcache (mput p e (c_mem c)) (aput (file p) (DFile t) (c_dir c)))
      | WRefused => (false, mkDcache (mput p e (c_mem c)) (c_dir c))
      | WCut n => (false, mkDcache (mput p e (c_mem c)) (aput (file p) (DFile (firstn n t)) (c_dir c))) end))).
  { destruct (dw_write w) as [| |n]; cbn [snd]; [apply (P t t eq_refl); auto|exact M|]. apply (P t _ eq_refl). destruct (Nat.lt_ge_cases n (length t)) as [L|L].
    - right. apply (RC e t n W L).
    - left. apply firstn_all2. exact L. }
  destruct (aget (file p) (c_dir c)) as [[u|]|]; [exact K|exact M|exact K].
Qed.
Lemma trusted_json w ns m : forall d, trusted (mkDcache m d) -> trusted (mkDcache m (snd (remove_json w ns d))).
Proof.
  induction ns as [|n ns IH]; intros d H; [exact H|]. cbn [remove_json]. destruct (json_name n); [|apply IH; exact H].
  destruct (aget n d) as [[t|]|]; [|exact H|exact H]. destruct (dw_remove w n); [|exact H]. apply IH. apply trusted_del_dir. exact H.
Qed.
Lemma trusted_clear w c : trusted c -> trusted (snd (fclear w c)).
Proof.
  intros [A B]. assert (M : trusted (mkDcache (mclear (c_mem c)) (c_dir c))) by (split; [intros q e F; discriminate F|exact B]).
  unfold fclear. destruct (dw_order w) as [ord|]; [|exact M]. pose proof (trusted_json w (ord (akeys (c_dir c))) _ _ M) as K.
  destruct (remove_json w (ord (akeys (c_dir c))) (c_dir c)) as [b d]. exact K.
Qed.
Lemma trusted_exec o c : (forall p, path_of o = Some p -> used p) -> In o all -> honest def o -> trusted c -> trusted (snd (fexec o c)).
Proof.
  intros U I H C. destruct o as [w p|w p e|w p n v d|w p|w|w|]; cbn [Defs_model.fexec].
  - pose proof (trusted_get w p c (U p eq_refl) C) as K. destruct (fget w p c). exact K.
  - assert (V : vouched p (with_ttl ttl e)).
    { destruct H as (x & F & D). exists (DPut w p e), w, x. unfold with_ttl. destruct (d_ttl e); cbn; auto. }
    pose proof (trusted_put w p (with_ttl ttl e) c (U p eq_refl) V C) as K. destruct (fput w p (with_ttl ttl e) c). exact K.
  - assert (V : vouched p (with_ttl ttl (packed w ttl p n v d))).
    { destruct H as (m & x & F & D). exists (DPutPackage w p n v d), w, x. unfold with_ttl, packed, dw_time. rewrite F. cbn. destruct ttl; cbn; auto. }
    pose proof (trusted_put w p (with_ttl ttl (packed w ttl p n v d)) c (U p eq_refl) V C) as K. destruct (fput w p (with_ttl ttl (packed w ttl p n v d)) c). exact K.
  - destruct C as [A B]. assert (M : trusted (mkDcache (mremove p (c_mem c)) (c_dir c))).
    { split; [|exact B]. intros q e. cbn [c_mem mremove m_store]. destruct (text_eqb q p) eqn:Q.
      - apply text_eqb_eq in Q. subst. rewrite aget_del_same. discriminate.
      - apply text_eqb_neq in Q. rewrite aget_del_other by exact Q. apply A. }
    unfold fremove. destruct (aget (file p) (c_dir c)) as [[t|]|]; [|exact M|exact M]. destruct (dw_remove w (file p)); [|exact M]. apply trusted_del_dir. exact M.
  - pose proof (trusted_clear w c C) as K. destruct (fclear w c). exact K.
  - pose proof (trusted_clear w c C) as K. destruct (fclear w c). exact K.
  - destruct C as [_ B]. split; [intros q e F; discriminate F|exact B].
Qed.
Lemma trusted_found w p c e c' : used p -> trusted c -> fget w p c = (Some (Some e), c') -> vouched p e.
Proof.
  intros Up [A B]. unfold fget. destruct (mget w p (c_mem c)) as [[x|] m] eqn:G.
  - intros [= -> _]. apply mget_current in G. apply A. apply G.
  - destruct (aget (file p) (c_dir c)) as [[t|]|] eqn:F; [|discriminate|discriminate]. destruct (dw_read w); [|discriminate]. destruct (read t) as [x|] eqn:R; [|discriminate].
    destruct (usable w p x) eqn:U; [|destruct (dw_remove w (file p)); discriminate]. intros [= -> _]. exact (B p t e Up F R).
Qed.
Lemma fresh_run os c k w p e : (forall q, uses os q -> used q) -> incl os all -> (forall o, In o os -> honest def o) -> trusted c ->
  nth_error os k = Some (DGet w p) -> nth_error (fst (frun os c)) k = Some (RFound (Some e)) ->
  exists m x, dw_file w p = Some (m, x) /\ d_data e = def x.
Proof.
  revert c k. induction os as [|o os IH]; intros c k U I Ho C; [destruct k; discriminate|].
  cbn [Defs_model.frun]. pose proof (trusted_exec o c (fun q Hq => U q (ex_intro _ o (conj (or_introl eq_refl) Hq))) (I o (or_introl eq_refl)) (Ho o (or_introl eq_refl)) C) as C1. destruct (fexec o c) as [r c1] eqn:E. destruct (frun os c1) as [rs c2] eqn:F.
  destruct k as [|k]; cbn [nth_error fst].
  - intros [= ->] [= ->]. cbn [Defs_model.fexec] in E. destruct (fget w p c) as [[x|] c'] eqn:G; [|discriminate]. injection E as -> <-.
    destruct (trusted_found w p c e c' (U p (ex_intro _ (DGet w p) (conj (or_introl eq_refl) eq_refl))) C G) as (o & w' & x & Io & Wo & Fo & D). destruct (fget_current w p c e c' G) as (m & y & Fy & Cl & _).
    exists m, y. split; [exact Fy|]. rewrite D. f_equal. apply (S o (DGet w p) w' w p (d_mtime e) m x y); auto; [apply I; left; reflexivity|].
    unfold close in *. rewrite <- Z.abs_opp. replace (- (d_mtime e - m))%Z with (m - d_mtime e)%Z by lia. exact Cl.
  - intros A B. apply (IH c1 k); [intros q (o' & Ho' & Eo); apply U; exists o'; split; [right; exact Ho'|exact Eo]|intros x Hx; apply I; right; exact Hx|intros x Hx; apply Ho; right; exact Hx|exact C1|exact A|]. rewrite F. exact B.
Qed.
End Fresh.

(** ** The store in memory against that of files *)
Definition synced (used : text -> Prop) (c : dcache) : Prop := (forall p e, aget p (m_store (c_mem c)) = Some e -> used p /\ exists t, aget (file p) (c_dir c) = Some (DFile t) /\ read t = Some e) /\
  (forall n t, aget n (c_dir c) = Some t -> exists u e, t = DFile u /\ read u = Some e).
Lemma synced_new used : synced used (reopened []).
Proof. split; [intros p e H|intros n t H]; discriminate H. Qed.
Lemma synced_reopened used c : synced used c -> synced used (reopened (c_dir c)).
Proof. intros [_ B]. split; [intros p e H; discriminate H|exact B]. Qed.
Lemma fget_reopened used w p c : synced used c -> fst (fget w p (reopened (c_dir c))) = fst (fget w p c) \/ dw_read w = false.
Proof.
  intros [A B]. destruct (dw_read w) eqn:R; [left|right; reflexivity].
  unfold fget. cbn [c_mem reopened c_dir]. change (mget w p new_dmem) with (@None dentry, mkDmem [] (miss (m_stats new_dmem))). cbv iota.
  destruct (mget w p (c_mem c)) as [[x|] m] eqn:G.
  - apply mget_current in G as [G1 G2]. destruct (A p x G1) as (_ & t & F & Q). rewrite F, R, Q. apply usable_current in G2. rewrite G2. reflexivity.
  - destruct (aget (file p) (c_dir c)) as [[t|]|]; [|reflexivity|reflexivity]. rewrite R. destruct (read t) as [x|]; [|reflexivity]. destruct (usable w p x); [reflexivity|]. destruct (dw_remove w (file p)); reflexivity.
Qed.
Section Sync.
Context (used : text -> Prop) (H64 : hash64 hash) (NC : no_collision hash used) (RB : reads_back write read).
Lemma synced_get w p c : used p -> synced used c -> synced used (snd (fget w p c)).
Proof.
  intros Up [A B]. unfold fget. destruct (mget w p (c_mem c)) as [r m] eqn:G.
  assert (M : synced used (mkDcache m (c_dir c))).
  { split; [|exact B]. intros q e F. cbn [c_mem] in F. apply A. exact (mget_store w p (c_mem c) r m q e G F). }
  destruct r as [x|]; [exact M|]. destruct (aget (file p) (c_dir c)) as [[t|]|] eqn:F; [|exact M|exact M]. destruct (dw_read w); [|exact M].
  destruct (read t) as [x|] eqn:R; [|exact M].
  assert (N : aget p (m_store m) = None).
  { revert G. unfold mget. destruct (aget p (m_store (c_mem c))) as [y|] eqn:E; [destruct (usable w p y); intros [= <-]; apply aget_del_same|]. intros [= <-]. exact E. }
  destruct (usable w p x).
  - cbn [snd]. destruct M as [M1 M2]. split; [|exact M2]. intros q e. cbn [c_mem mput m_store c_dir]. destruct (text_eqb q p) eqn:Q.
    + apply text_eqb_eq in Q. subst. rewrite aget_put_same. intros [= <-]. split; [exact Up|]. exists t. auto.
    + apply text_eqb_neq in Q. rewrite aget_put_other by exact Q. apply M1.
  - destruct (dw_remove w (file p)); cbn [snd]; [|exact M]. destruct M as [M1 M2]. split.
    + intros q e K. cbn [c_mem c_dir] in *. destruct (text_eqb (file q) (file p)) eqn:Q.
      * apply text_eqb_eq in Q. apply (file_of_inj hash used q p H64 NC (proj1 (M1 q e K)) Up) in Q. subst. congruence.
      * apply text_eqb_neq in Q. rewrite aget_del_other by exact Q. apply M1. exact K.
    + intros n u K. cbn [c_dir] in K. destruct (text_eqb n (file p)) eqn:Q.
      * apply text_eqb_eq in Q. subst. rewrite aget_del_same in K. discriminate.
      * apply text_eqb_neq in Q. rewrite aget_del_other in K by exact Q. apply (M2 n u K).
Qed.
Lemma synced_put w p e c : used p -> dw_write w = WDone -> write e <> None -> synced used c -> synced used (snd (fput w p e c)) /\ fst (fput w p e c) = true.
Proof.
  intros Up D W [A B]. unfold Defs_model.fput. destruct (write e) as [t|] eqn:E; [|congruence]. rewrite D.
  assert (P : synced used (mkDcache (mput p e (c_mem c)) (aput (file p) (DFile t) (c_dir c)))).
  { split; cbn [c_mem c_dir mput m_store].
    - intros q x. destruct (text_eqb q p) eqn:Q.
      + apply text_eqb_eq in Q. subst. rewrite !aget_put_same. intros [= <-]. split; [exact Up|]. exists t. split; [reflexivity|apply RB; exact E].
      + apply text_eqb_neq in Q. rewrite aget_put_other by exact Q. intros K. rewrite aget_put_other; [apply A; exact K|]. intros F. apply Q. exact (file_of_inj hash used q p H64 NC (proj1 (A q x K)) Up F).
    - intros n u. destruct (text_eqb n (file p)) eqn:Q.
      + apply text_eqb_eq in Q. subst. rewrite aget_put_same. intros [= <-]. exists t, e. auto.
      + apply text_eqb_neq in Q. rewrite aget_put_other by exact Q. apply B. }
  destruct (aget (file p) (c_dir c)) as [u|] eqn:F; [|split; [exact P|reflexivity]].
  destruct (B _ _ F) as (v & x & -> & _). split; [exact P|reflexivity].
Qed.
Lemma remove_json_keeps w ns : forall d n t, aget n (snd (remove_json w ns d)) = Some t -> aget n d = Some t.
Proof.
  induction ns as [|x ns IH]; intros d n t H; [exact H|]. cbn [remove_json] in H. destruct (json_name x); [|apply IH; exact H].
  destruct (aget x d) as [[u|]|]; [|exact H|exact H]. destruct (dw_remove w x); [|exact H]. apply IH in H. destruct (text_eqb n x) eqn:Q.
  - apply text_eqb_eq in Q. subst. rewrite aget_del_same in H. discriminate.
  - apply text_eqb_neq in Q. rewrite aget_del_other in H by exact Q. exact H.
Qed.
Lemma synced_clear w c : synced used c -> synced used (snd (fclear w c)).
Proof.
  intros [A B]. unfold fclear. destruct (dw_order w) as [ord|]; [|split; [intros p e K; discriminate K|exact B]].
  destruct (remove_json w (ord (akeys (c_dir c))) (c_dir c)) as [b d] eqn:E. split; [intros p e K; discriminate K|]. cbn [snd c_dir]. intros n t K. apply (B n t).
  apply (remove_json_keeps w (ord (akeys (c_dir c))) (c_dir c) n t). rewrite E. exact K.
Qed.
Lemma with_ttl_eq e : with_ttl ttl e = mkDentry (d_name e) (d_version e) (d_path e) (d_mtime e) (d_data e) (d_cached e) (match d_ttl e with Some t => Some t | None => ttl end).
Proof. unfold with_ttl. destruct e as [a b c d x y [z|]]; reflexivity. Qed.
Lemma writable_put w p e : writable write ttl (DPut w p e) -> write (with_ttl ttl e) <> None.
Proof. rewrite with_ttl_eq. exact (fun H => H). Qed.
Lemma with_ttl_packed w p n v d : with_ttl ttl (packed w ttl p n v d) = mkDentry n v p (match dw_file w p with Some (m, _) => m | None => dw_now w end) d (dw_now w) ttl.
Proof. unfold with_ttl, packed, dw_time. destruct (dw_file w p) as [[m x]|]; cbn; destruct ttl; reflexivity. Qed.
Lemma writable_pack w p n v d : writable write ttl (DPutPackage w p n v d) -> write (with_ttl ttl (packed w ttl p n v d)) <> None.
Proof. rewrite with_ttl_packed. exact (fun H => H). Qed.
Lemma synced_exec o c : (forall p, path_of o = Some p -> used p) -> (forall w, world_of o = Some w -> dw_write w = WDone) -> writable write ttl o -> synced used c -> synced used (snd (fexec o c)).
Proof.
  intros U Sm W C. destruct o as [w p|w p e|w p n v d|w p|w|w|]; cbn [Defs_model.fexec].
  - pose proof (synced_get w p c (U p eq_refl) C) as K. destruct (fget w p c). exact K.
  - pose proof (synced_put w p (with_ttl ttl e) c (U p eq_refl) (Sm w eq_refl) (writable_put w p e W) C) as [K _]. destruct (fput w p (with_ttl ttl e) c). exact K.
  - pose proof (synced_put w p _ c (U p eq_refl) (Sm w eq_refl) (writable_pack w p n v d W) C) as [K _]. destruct (fput w p (with_ttl ttl (packed w ttl p n v d)) c). exact K.
  - destruct C as [A B].
    assert (MA : forall q e, aget q (adel p (m_store (c_mem c))) = Some e -> q <> p /\ aget q (m_store (c_mem c)) = Some e).
    { intros q e. destruct (text_eqb q p) eqn:Q.
      - apply text_eqb_eq in Q. subst. rewrite aget_del_same. discriminate.
      - apply text_eqb_neq in Q. rewrite aget_del_other by exact Q. auto. }
    assert (M : synced used (mkDcache (mremove p (c_mem c)) (c_dir c))).
    { split; [|exact B]. intros q e K. cbn [c_mem mremove m_store] in K. apply A. apply MA. exact K. }
    unfold fremove. destruct (aget (file p) (c_dir c)) as [[t|]|]; [|exact M|exact M]. destruct (dw_remove w (file p)); [|exact M]. cbn [snd]. split; cbn [c_mem c_dir mremove m_store].
    + intros q e K. apply MA in K as [Q K]. rewrite aget_del_other; [apply A; exact K|]. intros F. apply Q. exact (file_of_inj hash used q p H64 NC (proj1 (A q e K)) (U p eq_refl) F).
    + intros n u K. destruct (text_eqb n (file p)) eqn:Q.
      * apply text_eqb_eq in Q. subst. rewrite aget_del_same in K. discriminate.
      * apply text_eqb_neq in Q. rewrite aget_del_other in K by exact Q. apply (B n u K).
  - pose proof (synced_clear w c C) as K. destruct (fclear w c). exact K.
  - pose proof (synced_clear w c C) as K. destruct (fclear w c). exact K.
  - apply synced_reopened. exact C.
Qed.
Lemma synced_run os : forall c, (forall q, uses os q -> used q) -> (forall o w, In o os -> world_of o = Some w -> dw_write w = WDone) -> (forall o, In o os -> writable write ttl o) -> synced used c -> synced used (snd (frun os c)).
Proof.
  induction os as [|o os IH]; intros c U D W C; [exact C|]. cbn [Defs_model.frun].
  pose proof (synced_exec o c (fun q Hq => U q (ex_intro _ o (conj (or_introl eq_refl) Hq))) (fun w => D o w (or_introl eq_refl)) (W o (or_introl eq_refl)) C) as C1. destruct (fexec o c) as [r c1].
  pose proof (IH c1 (fun q '(ex_intro _ o' (conj Ho' Eo)) => U q (ex_intro _ o' (conj (or_intror Ho') Eo))) (fun x w Hx => D x w (or_intror Hx)) (fun x Hx => W x (or_intror Hx)) C1) as C2. destruct (frun os c1). exact C2.
Qed.
Lemma remove_json_all w : forall ns d, NoDup ns -> (forall n, In n ns -> exists t, aget n d = Some (DFile t)) -> (forall n, dw_remove w n = true) -> fst (remove_json w ns d) = true.
Proof.
  induction ns as [|n ns IH]; intros d N I R; [reflexivity|]. inversion N as [|? ? N1 N2]; subst. cbn [remove_json].
  destruct (json_name n).
  - destruct (I n (or_introl eq_refl)) as [t ->]. rewrite R. apply IH; [exact N2| |exact R]. intros x Hx. destruct (I x (or_intror Hx)) as [u K]. exists u. rewrite aget_del_other; [exact K|]. intros ->. exact (N1 Hx).
  - apply IH; [exact N2| |exact R]. intros x Hx. apply I. right. exact Hx.
Qed.
Lemma dir_exec o c : NoDup (akeys (c_dir c)) -> NoDup (akeys (c_dir (snd (fexec o c)))).
Proof.
  assert (J : forall w ns d, NoDup (akeys d) -> NoDup (akeys (snd (remove_json w ns d)))).
  { intros w ns. induction ns as [|n ns IH]; intros d H; [exact H|]. cbn [remove_json]. destruct (json_name n); [|apply IH; exact H].
    destruct (aget n d) as [[t|]|]; [|exact H|exact H]. destruct (dw_remove w n); [|exact H]. apply IH. apply nodup_del. exact H. }
  assert (CL : forall w, NoDup (akeys (c_dir c)) -> NoDup (akeys (c_dir (snd (fclear w c))))).
  { intros w H. unfold fclear. destruct (dw_order w) as [ord|]; [|exact H]. specialize (J w (ord (akeys (c_dir c))) _ H). destruct (remove_json _ _ _). exact J. }
  assert (PU : forall w p e, NoDup (akeys (c_dir c)) -> NoDup (akeys (c_dir (snd (fput w p e c))))).
  { intros w p e H. unfold Defs_model.fput. destruct (write e); [|exact H]. destruct (aget _ _) as [[u|]|]; [|exact H|]; destruct (dw_write w); cbn [snd c_dir]; try apply nodup_put; exact H. }
  intros H. destruct o as [w p|w p e|w p n v d|w p|w|w|]; cbn [Defs_model.fexec].
  - unfold fget. destruct (mget w p (c_mem c)) as [[x|] m]; [exact H|]. destruct (aget _ _) as [[t|]|]; [|exact H|exact H]. destruct (dw_read w); [|exact H].
    destruct (read t) as [x|]; [|exact H]. destruct (usable w p x); [exact H|]. destruct (dw_remove w (file p)); [apply nodup_del|]; exact H.
  - specialize (PU w p (with_ttl ttl e) H). destruct (fput w p (with_ttl ttl e) c). exact PU.
  - specialize (PU w p (with_ttl ttl (packed w ttl p n v d)) H). destruct (fput _ _ _ _). exact PU.
  - unfold fremove. destruct (aget _ _) as [[t|]|]; [|exact H|exact H]. destruct (dw_remove w (file p)); [apply nodup_del|]; exact H.
  - specialize (CL w H). destruct (fclear w c). exact CL.
  - specialize (CL w H). destruct (fclear w c). exact CL.
  - exact H.
Qed.
(** With calls that succeed, no operation fails. *)
Lemma smooth_exec o c : (forall p, path_of o = Some p -> used p) -> smooth o -> writable write ttl o -> synced used c -> NoDup (akeys (c_dir c)) -> fst (fexec o c) <> RErr.
Proof.
  intros U Sm W C N. pose proof C as [A B].
  assert (CL : forall w, world_of o = Some w -> fst (fclear w c) = true).
  { intros w Hw. destruct (Sm w Hw) as (_ & R & _ & ord & O & P). unfold fclear. rewrite O. pose proof (remove_json_all w (ord (akeys (c_dir c))) (c_dir c)) as K.
    destruct (remove_json w (ord (akeys (c_dir c))) (c_dir c)) as [b d]. apply K; [|intros n Hn|exact R].
    - apply (Permutation_NoDup (l := akeys (c_dir c))); [apply Permutation_sym, P|exact N].
    - apply (Permutation_in n (P _)) in Hn. apply aget_some in Hn as [t Ht]. destruct (B n t Ht) as (u & e & -> & _). exists u. exact Ht. }
  destruct o as [w p|w p e|w p n v d|w p|w|w|]; cbn [Defs_model.fexec].
  - destruct (Sm w eq_refl) as (Rd & Rm & _). unfold fget. destruct (mget w p (c_mem c)) as [[x|] m]; [discriminate|]. destruct (aget (file p) (c_dir c)) as [t|] eqn:F; [|discriminate].
    destruct (B _ _ F) as (u & e & -> & R). rewrite Rd, R. destruct (usable w p e); [discriminate|]. rewrite Rm. discriminate.
  - destruct (Sm w eq_refl) as (_ & _ & D & _). pose proof (synced_put w p (with_ttl ttl e) c (U p eq_refl) D (writable_put w p e W) C) as [_ K]. destruct (fput _ _ _ _) as [b c']. cbn in K. subst. discriminate.
  - destruct (Sm w eq_refl) as (_ & _ & D & _). pose proof (synced_put w p _ c (U p eq_refl) D (writable_pack w p n v d W) C) as [_ K]. destruct (fput _ _ _ _) as [b c']. cbn in K. subst. discriminate.
  - destruct (Sm w eq_refl) as (_ & Rm & _). unfold fremove. destruct (aget (file p) (c_dir c)) as [t|] eqn:F; [|discriminate]. destruct (B _ _ F) as (u & e & -> & R). rewrite Rm. discriminate.
  - specialize (CL w eq_refl). destruct (fclear w c) as [b c']. cbn in CL. subst. discriminate.
  - specialize (CL w eq_refl). destruct (fclear w c) as [b c']. cbn in CL. subst. discriminate.
  - discriminate.
Qed.
Lemma smooth_run os : forall c, (forall q, uses os q -> used q) -> (forall o, In o os -> smooth o /\ writable write ttl o) -> synced used c -> NoDup (akeys (c_dir c)) -> ~ In RErr (fst (frun os c)).
Proof.
  induction os as [|o os IH]; intros c U Sm C N; [exact (fun H => H)|]. cbn [Defs_model.frun].
  destruct (Sm o (or_introl eq_refl)) as [S1 W1].
  pose proof (smooth_exec o c (fun q Hq => U q (ex_intro _ o (conj (or_introl eq_refl) Hq))) S1 W1 C N) as E. pose proof (dir_exec o c N) as N1.
  assert (C1 : synced used (snd (fexec o c))).
  { apply synced_exec; [exact (fun q Hq => U q (ex_intro _ o (conj (or_introl eq_refl) Hq)))| |exact W1|exact C]. intros w Hw. destruct (S1 w Hw) as (_ & _ & D & _). exact D. }
  destruct (fexec o c) as [r c1]. specialize (IH c1 (fun q '(ex_intro _ o' (conj Ho' Eo)) => U q (ex_intro _ o' (conj (or_intror Ho') Eo))) (fun x Hx => Sm x (or_intror Hx)) C1 N1). destruct (frun os c1) as [rs c2]. cbn [fst In] in *. intros [H|H]; [exact (E H)|exact (IH H)].
Qed.
End Sync.

(** ** What is stored is found *)
Lemma fget_mem w p c e : aget p (m_store (c_mem c)) = Some e -> current w p e -> fget w p c = (Some (Some e), mkDcache (mkDmem (m_store (c_mem c)) (hit (m_stats (c_mem c)))) (c_dir c)).
Proof. intros A U. apply usable_current in U. unfold fget, mget. rewrite A, U. reflexivity. Qed.
Lemma leaves_exec o c p e : leaves p e o -> aget p (m_store (c_mem c)) = Some e -> aget p (m_store (c_mem (snd (fexec o c)))) = Some e.
Proof.
  assert (PU : forall w q x, q <> p -> aget p (m_store (c_mem c)) = Some e -> aget p (m_store (c_mem (snd (fput w q x c)))) = Some e).
  { intros w q x Q A. assert (M : aget p (m_store (mput q x (c_mem c))) = Some e) by (cbn [mput m_store]; rewrite aget_put_other; [exact A|congruence]).
    unfold Defs_model.fput. destruct (write x); [|exact M]. destruct (aget (file q) (c_dir c)) as [[u|]|]; [|exact M|]; destruct (dw_write w); exact M. }
  intros L A. destruct o as [w q|w q x|w q n v d|w q|w|w|]; cbn [leaves] in L; cbn [Defs_model.fexec]; try contradiction.
  - destruct (text_eqb q p) eqn:Q.
    + apply text_eqb_eq in Q. subst. rewrite (fget_mem w p c e A (L eq_refl)). exact A.
    + apply text_eqb_neq in Q. unfold fget, mget. destruct (aget q (m_store (c_mem c))) as [x|] eqn:E.
      * destruct (usable w q x); [exact A|]. assert (M : aget p (adel q (m_store (c_mem c))) = Some e) by (rewrite aget_del_other; [exact A|congruence]).
        destruct (aget (file q) (c_dir c)) as [[t|]|]; [|exact M|exact M]. destruct (dw_read w); [|exact M]. destruct (read t) as [y|]; [|exact M].
        destruct (usable w q y); [|destruct (dw_remove w (file q)); exact M]. cbn [snd c_mem mput m_store]. rewrite aget_put_other; [exact M|congruence].
      * destruct (aget (file q) (c_dir c)) as [[t|]|]; [|exact A|exact A]. destruct (dw_read w); [|exact A]. destruct (read t) as [y|]; [|exact A].
        destruct (usable w q y); [|destruct (dw_remove w (file q)); exact A]. cbn [snd c_mem mput m_store]. rewrite aget_put_other; [exact A|congruence].
  - specialize (PU w q (with_ttl ttl x) L A). destruct (fput _ _ _ _). exact PU.
  - specialize (PU w q (with_ttl ttl (packed w ttl q n v d)) L A). destruct (fput _ _ _ _). exact PU.
  - assert (M : aget p (m_store (mremove q (c_mem c))) = Some e) by (cbn [mremove m_store]; rewrite aget_del_other; [exact A|congruence]).
    unfold fremove. destruct (aget (file q) (c_dir c)) as [[t|]|]; [|exact M|exact M]. destruct (dw_remove w (file q)); exact M.
Qed.
Lemma leaves_run os p e : forall c, (forall o, In o os -> leaves p e o) -> aget p (m_store (c_mem c)) = Some e -> aget p (m_store (c_mem (snd (frun os c)))) = Some e.
Proof.
  induction os as [|o os IH]; intros c L A; [exact A|]. cbn [Defs_model.frun]. pose proof (leaves_exec o c p e (L o (or_introl eq_refl)) A) as K. destruct (fexec o c) as [r c1].
  specialize (IH c1 (fun x Hx => L x (or_intror Hx)) K). destruct (frun os c1). exact IH.
Qed.
Lemma fput_mem w p e c : aget p (m_store (c_mem (snd (fput w p e c)))) = Some e.
Proof.
  assert (M : aget p (m_store (mput p e (c_mem c))) = Some e) by apply aget_put_same.
  unfold Defs_model.fput. destruct (write e); [|exact M]. destruct (aget (file p) (c_dir c)) as [[u|]|]; [|exact M|]; destruct (dw_write w); exact M.
Qed.

(** ** Failing for good *)
Lemma stuck_run p t os : forall c k w, (forall o, In o os -> exists w q, o = DGet w q) -> aget p (m_store (c_mem c)) = None -> aget (file p) (c_dir c) = Some (DFile t) -> read t = None ->
  no_collision hash (fun q => q = p \/ uses os q) -> hash64 hash -> nth_error os k = Some (DGet w p) -> nth_error (fst (frun os c)) k = Some RErr.
Proof.
  induction os as [|o os IH]; intros c k w G A F R NC H64; [destruct k; discriminate|].
  cbn [Defs_model.frun]. destruct (fexec o c) as [r c1] eqn:E. destruct (frun os c1) as [rs c2] eqn:Q.
  destruct k as [|k]; cbn [nth_error fst].
  - intros [= ->]. cbn [Defs_model.fexec] in E. unfold fget, mget in E. rewrite A in E. rewrite F in E. rewrite R in E. destruct (dw_read w); injection E as <- _; reflexivity.
  - intros N. assert (aget p (m_store (c_mem c1)) = None /\ aget (file p) (c_dir c1) = Some (DFile t)) as [A1 F1].
    { destruct (G o (or_introl eq_refl)) as (w' & q & ->). cbn [Defs_model.fexec] in E. destruct (fget w' q c) as [x c'] eqn:K. injection E as _ <-.
      revert K. unfold fget. destruct (mget w' q (c_mem c)) as [y m] eqn:M.
      assert (AM : aget p (m_store m) = None).
      { destruct (aget p (m_store m)) as [z|] eqn:Z; [|reflexivity]. apply (mget_store w' q (c_mem c) y m p z M) in Z. congruence. }
      destruct y as [y|]; [intros [= _ <-]; auto|]. destruct (aget (file q) (c_dir c)) as [[u|]|] eqn:Fq; [|intros [= _ <-]; auto|intros [= _ <-]; auto].
      destruct (dw_read w'); [|intros [= _ <-]; auto]. destruct (read u) as [z|] eqn:Ru; [|intros [= _ <-]; auto].
      assert (D : q <> p) by (intros ->; congruence).
      destruct (usable w' q z); [intros [= _ <-]; split; [cbn [c_mem mput m_store]; rewrite aget_put_other; [exact AM|congruence]|exact F]|].
      destruct (dw_remove w' (file q)); intros [= _ <-]; split; auto; cbn [c_dir]. rewrite aget_del_other; [exact F|]. intros X. apply D. symmetry. exact (file_of_inj hash _ p q H64 NC (or_introl eq_refl) (or_intror (ex_intro _ (DGet w' q) (conj (or_introl eq_refl) eq_refl))) X). }
    assert (NC1 : no_collision hash (fun q => q = p \/ uses os q)).
    { intros a b Ha Hb. apply NC; [destruct Ha as [Ha|(o' & H1 & H2)]|destruct Hb as [Hb|(o' & H1 & H2)]]; auto; right; exists o'; split; auto; right; auto. }
    specialize (IH c1 k w (fun x Hx => G x (or_intror Hx)) A1 F1 R NC1 H64 N). rewrite Q in IH. exact IH.
Qed.

(** ** Clearing *)
Lemma remove_json_true w ns : forall d n, fst (remove_json w ns d) = true -> In n ns -> json_name n = true -> aget n (snd (remove_json w ns d)) = None.
Proof.
  induction ns as [|x ns IH]; intros d n H I J; [destruct I|]. cbn [remove_json] in *. destruct I as [->|I].
  - rewrite J in *. destruct (aget n d) as [[t|]|]; [|discriminate|discriminate]. destruct (dw_remove w n); [|discriminate].
    destruct (aget n (snd (remove_json w ns (adel n d)))) as [u|] eqn:Q; [|reflexivity]. apply remove_json_keeps in Q. rewrite aget_del_same in Q. discriminate.
  - destruct (json_name x); [|apply IH; assumption]. destruct (aget x d) as [[t|]|]; [|discriminate|discriminate]. destruct (dw_remove w x); [|discriminate]. apply IH; assumption.
Qed.
Lemma remove_json_other w ns : forall d n, json_name n = false -> aget n (snd (remove_json w ns d)) = aget n d.
Proof.
  induction ns as [|x ns IH]; intros d n J; [reflexivity|]. cbn [remove_json]. destruct (json_name x) eqn:X; [|apply IH; exact J].
  destruct (aget x d) as [[t|]|]; [|reflexivity|reflexivity]. destruct (dw_remove w x); [|reflexivity]. rewrite IH by exact J. apply aget_del_other. intros ->. congruence.
Qed.
Lemma fclear_empty w c : (forall ord, dw_order w = Some ord -> forall l, Permutation (ord l) l) -> fst (fclear w c) = true ->
  m_store (c_mem (snd (fclear w c))) = [] /\ (forall n, json_name n = true -> aget n (c_dir (snd (fclear w c))) = None) /\
  (forall n, json_name n = false -> aget n (c_dir (snd (fclear w c))) = aget n (c_dir c)).
Proof.
  unfold fclear. destruct (dw_order w) as [ord|]; [|discriminate]. intros P. specialize (P ord eq_refl (akeys (c_dir c))).
  pose proof (remove_json_true w (ord (akeys (c_dir c))) (c_dir c)) as A. pose proof (remove_json_other w (ord (akeys (c_dir c))) (c_dir c)) as B. pose proof (remove_json_keeps w (ord (akeys (c_dir c))) (c_dir c)) as K.
  destruct (remove_json w (ord (akeys (c_dir c))) (c_dir c)) as [b d]. cbn [fst snd c_mem c_dir mclear m_store] in *. intros ->. split; [reflexivity|]. split; [|exact B].
  intros n J. destruct (aget n d) as [t|] eqn:Q; [|reflexivity]. rewrite <- Q. apply A; [reflexivity| |exact J].
  apply (Permutation_in n (Permutation_sym P)). apply aget_some. exists t. apply K. exact Q.
Qed.
Lemma fget_empty w p c : aget p (m_store (c_mem c)) = None -> aget (file p) (c_dir c) = None -> fst (fget w p c) = Some None.
Proof. intros A B. unfold fget, mget. rewrite A, B. reflexivity. Qed.

(** ** Counters of the store of files *)
Lemma frun_counts os : forall c, count is_restart os = 0 -> let '(rs, c') := frun os c in
  count found rs + st_misses (m_stats (c_mem c')) + st_puts (m_stats (c_mem c)) + count is_put os = count is_get os + st_misses (m_stats (c_mem c)) + st_puts (m_stats (c_mem c')) /\
  st_removes (m_stats (c_mem c')) = st_removes (m_stats (c_mem c)) + count is_remove os /\
  st_clears (m_stats (c_mem c')) = st_clears (m_stats (c_mem c)) + count is_clear os.
Proof.
  unfold count. induction os as [|o os IH]; intros c R; [cbn; lia|]. cbn [Defs_model.frun]. destruct (fexec o c) as [r c1] eqn:E.
  assert (R1 : length (filter is_restart os) = 0 /\ is_restart o = false) by (cbn in R; destruct (is_restart o); cbn in R; [discriminate|auto]). destruct R1 as [R1 R2].
  specialize (IH c1 R1). destruct (frun os c1) as [rs c2].
  assert (PU : forall w p e, m_stats (c_mem (snd (fput w p e c))) = stored (m_stats (c_mem c))).
  { intros w p e. unfold Defs_model.fput. destruct (write e); [|reflexivity]. destruct (aget _ _) as [[u|]|]; [|reflexivity|]; destruct (dw_write w); reflexivity. }
  assert (CL : forall w, m_stats (c_mem (snd (fclear w c))) = cleared (m_stats (c_mem c))).
  { intros w. unfold fclear. destruct (dw_order w) as [ord|]; [|reflexivity]. destruct (remove_json _ _ _); reflexivity. }
  destruct o as [w p|w p e|w p n v d|w p|w|w|]; try discriminate R2; cbn [Defs_model.fexec] in E.
  - unfold fget, mget in E. destruct (aget p (m_store (c_mem c))) as [x|]; [destruct (usable w p x); [injection E as <- <-; cbn in *; lia|]|];
      (destruct (aget (file p) (c_dir c)) as [[t|]|]; [|injection E as <- <-; cbn in *; lia|injection E as <- <-; cbn in *; lia]);
      (destruct (dw_read w); [|injection E as <- <-; cbn in *; lia]);
      (destruct (read t) as [y|]; [|injection E as <- <-; cbn in *; lia]);
      (destruct (usable w p y); [injection E as <- <-; cbn in *; lia|]);
      destruct (dw_remove w (file p)); injection E as <- <-; cbn in *; lia.
  - specialize (PU w p (with_ttl ttl e)). destruct (fput _ _ _ _) as [b c']. injection E as <- <-. cbn [snd] in PU. rewrite PU in IH. destruct b; cbn in *; lia.
  - specialize (PU w p (with_ttl ttl (packed w ttl p n v d))). destruct (fput _ _ _ _) as [b c']. injection E as <- <-. cbn [snd] in PU. rewrite PU in IH. destruct b; cbn in *; lia.
  - unfold fremove in E. destruct (aget (file p) (c_dir c)) as [[t|]|]; [destruct (dw_remove w (file p))| |]; injection E as <- <-; cbn in *; lia.
  - specialize (CL w). destruct (fclear w c) as [b c']. injection E as <- <-. cbn [snd] in CL. rewrite CL in IH. destruct b; cbn in *; lia.
  - specialize (CL w). destruct (fclear w c) as [b c']. injection E as <- <-. cbn [snd] in CL. rewrite CL in IH. destruct b; cbn in *; lia.
Qed.
End Run.

(** ** Counters of the store in memory *)
Lemma mrun_counts ttl os : forall m, count is_restart os = 0 -> let '(rs, m') := mrun ttl os m in
  st_misses (m_stats m') = st_misses (m_stats m) + count missed rs /\
  count found rs <= st_hits (m_stats m') - st_hits (m_stats m) /\ st_hits (m_stats m) <= st_hits (m_stats m') /\
  st_hits (m_stats m') <= st_hits (m_stats m) + count is_get os /\
  st_puts (m_stats m') = st_puts (m_stats m) + count is_put os /\
  st_removes (m_stats m') = st_removes (m_stats m) + count is_remove os /\
  st_clears (m_stats m') = st_clears (m_stats m) + count is_clear os.
Proof.
  unfold count. induction os as [|o os IH]; intros m R; [cbn; lia|]. cbn [mrun]. destruct (mexec ttl o m) as [r m1] eqn:E.
  assert (R1 : length (filter is_restart os) = 0 /\ is_restart o = false) by (cbn in R; destruct (is_restart o); cbn in R; [discriminate|auto]). destruct R1 as [R1 R2].
  specialize (IH m1 R1). destruct (mrun ttl os m1) as [rs m2].
  destruct o as [w p|w p e|w p n v d|w p|w|w|]; try discriminate R2; cbn [mexec] in E.
  - unfold mget in E. destruct (aget p (m_store m)) as [x|].
    + destruct (usable w p x); injection E as <- <-; cbn in *; lia.
    + injection E as <- <-; cbn in *; lia.
  - injection E as <- <-; cbn in *; lia.
  - injection E as <- <-; cbn in *; lia.
  - injection E as <- <-; cbn in *; lia.
  - injection E as <- <-; cbn in *; lia.
  - injection E as <- <-; cbn in *; lia.
Qed.

(** ** Threads *)
Lemma tset_in i t ts u : In u (tset i t ts) -> u = t \/ In u ts.
Proof.
  revert i. induction ts as [|x ts IH]; intros i H; [destruct i; destruct H|]. destruct i as [|i]; cbn in H.
  - destruct H as [<-|H]; [left; reflexivity|right; right; exact H].
  - destruct H as [<-|H]; [right; left; reflexivity|]. apply IH in H as [->|H]; [left; reflexivity|right; right; exact H].
Qed.
Lemma threads_safe (ok : text -> dentry -> Prop) sched : forall ts st, (forall t p e, In t ts -> In (TPut p e) t -> ok p e) -> (forall p e, aget p st = Some e -> ok p e) ->
  (forall i a e, In (i, a, Some e) (fst (fst (trun sched ts st))) -> exists w p, a = TGet w p /\ current w p e /\ ok p e) /\
  (forall p e, aget p (snd (trun sched ts st)) = Some e -> ok p e).
Proof.
  induction sched as [|i l IH]; intros ts st P Q; [cbn; split; [intros ? ? ? []|exact Q]|].
  cbn [trun]. destruct (nth_error ts i) as [[|a t]|] eqn:E; [apply IH; assumption| |apply IH; assumption].
  destruct (tstep a st) as [[r more] st'] eqn:T.
  assert (It : In (a :: t) ts) by (eapply nth_error_In; exact E).
  assert (M : forall p e, ~ In (TPut p e) more).
  { intros p e. destruct a as [w q|q|q x|q|]; cbn in T; [|injection T as _ <- _; exact (fun H => H)..].
    destruct (aget q st) as [x|]; [destruct (usable w q x)|]; injection T as _ <- _; cbn; intros H; [exact H|destruct H as [H|[]]; discriminate H|exact H]. }
  assert (P' : forall u p e, In u (tset i (more ++ t) ts) -> In (TPut p e) u -> ok p e).
  { intros u p e Hu He. apply tset_in in Hu as [->|Hu]; [|exact (P u p e Hu He)]. apply in_app_or in He as [He|He]; [exfalso; exact (M p e He)|]. apply (P _ p e It). right. exact He. }
  assert (Q' : forall p e, aget p st' = Some e -> ok p e).
  { intros p e. destruct a as [w q|q|q x|q|]; cbn in T.
    - destruct (aget q st) as [x|]; [destruct (usable w q x)|]; injection T as _ _ <-; apply Q.
    - injection T as _ _ <-. destruct (text_eqb p q) eqn:X; [apply text_eqb_eq in X; subst; rewrite aget_del_same; discriminate|apply text_eqb_neq in X; rewrite aget_del_other by exact X; apply Q].
    - injection T as _ _ <-. destruct (text_eqb p q) eqn:X; [apply text_eqb_eq in X; subst; rewrite aget_put_same; intros [= <-]; apply (P _ q x It); left; reflexivity|apply text_eqb_neq in X; rewrite aget_put_other by exact X; apply Q].
    - injection T as _ _ <-. destruct (text_eqb p q) eqn:X; [apply text_eqb_eq in X; subst; rewrite aget_del_same; discriminate|apply text_eqb_neq in X; rewrite aget_del_other by exact X; apply Q].
    - injection T as _ _ <-. discriminate. }
  specialize (IH _ st' P' Q'). destruct (trun l (tset i (more ++ t) ts) st') as [[rs ts'] st'']. cbn [fst snd] in *. destruct IH as [IH1 IH2]. split; [|exact IH2].
  intros j b e H. destruct r as [r|]; [|exact (IH1 j b e H)]. destruct H as [H|H]; [|exact (IH1 j b e H)]. injection H as <- <- ->.
  destruct a as [w q|q|q x|q|]; cbn in T; try discriminate T. destruct (aget q st) as [x|] eqn:G; [|discriminate]. destruct (usable w q x) eqn:U; [|discriminate]. injection T as -> _ _.
  exists w, q. split; [reflexivity|]. split; [apply usable_current; exact U|apply Q; exact G].
Qed.
Lemma nth_tset_same i t ts u : nth_error ts i = Some u -> nth_error (tset i t ts) i = Some t.
Proof. revert i. induction ts as [|x ts IH]; intros [|i]; cbn; try discriminate; auto. Qed.
Lemma threads_keep p good sched : forall ts st, (forall t a, In t ts -> In a t -> harmless p good a) -> (exists e, aget p st = Some e /\ good e) ->
  exists e, aget p (snd (trun sched ts st)) = Some e /\ good e.
Proof.
  induction sched as [|i l IH]; intros ts st P (e & A & Ge); [exists e; auto|].
  cbn [trun]. destruct (nth_error ts i) as [[|a t]|] eqn:E; [apply IH; [exact P|exists e; auto]| |apply IH; [exact P|exists e; auto]].
  assert (It : In (a :: t) ts) by (eapply nth_error_In; exact E). pose proof (P _ a It (or_introl eq_refl)) as Ha.
  destruct (tstep a st) as [[r more] st'] eqn:T.
  assert (K : (forall b, In b more -> harmless p good b) /\ exists e', aget p st' = Some e' /\ good e').
  { destruct a as [w q|q|q x|q|]; cbn in T; cbn in Ha.
    - destruct (text_eqb q p) eqn:X.
      + apply text_eqb_eq in X. subst. rewrite A in T. pose proof (Ha eq_refl e Ge) as C. apply usable_current in C. rewrite C in T. injection T as _ <- <-. split; [intros b []|exists e; auto].
      + apply text_eqb_neq in X. destruct (aget q st) as [x|]; [destruct (usable w q x)|]; injection T as _ <- <-; (split; [|exists e; auto]); intros b Hb; [destruct Hb| |destruct Hb]. destruct Hb as [<-|[]]. exact X.
    - injection T as _ <- <-. split; [intros b []|]. exists e. rewrite aget_del_other by congruence. auto.
    - injection T as _ <- <-. split; [intros b []|]. destruct (text_eqb q p) eqn:X; [apply text_eqb_eq in X; subst; exists x; rewrite aget_put_same; auto|apply text_eqb_neq in X; exists e; rewrite aget_put_other by congruence; auto].
    - injection T as _ <- <-. split; [intros b []|]. exists e. rewrite aget_del_other by congruence. auto.
    - destruct Ha. }
  destruct K as [K1 K2].
  assert (P' : forall u b, In u (tset i (more ++ t) ts) -> In b u -> harmless p good b).
  { intros u b Hu Hb. apply tset_in in Hu as [->|Hu]; [|exact (P u b Hu Hb)]. apply in_app_or in Hb as [Hb|Hb]; [exact (K1 b Hb)|]. apply (P _ b It). right. exact Hb. }
  specialize (IH _ st' P' K2). destruct (trun l (tset i (more ++ t) ts) st') as [[rs ts'] st'']. exact IH.
Qed.
