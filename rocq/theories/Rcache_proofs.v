(** The answers of the repository cache over any history. *)
From Verif Require Import Base Base_lemmas Maps Order_spec Rcache_model Rcache_spec Cache_proofs.
From Coq Require Import Lia.

Lemma secs_some z n : secs z = Some n <-> (0 <= z)%Z /\ n = second z.
Proof. unfold secs, second, GIGA. destruct (Z.ltb_spec z 0); split; intros K; [discriminate|lia|split; [assumption|congruence]|destruct K as [_ ->]; reflexivity]. Qed.
Lemma second_nonneg z : (0 <= z)%Z -> (0 <= second z)%Z.
Proof. intros H. apply Z.div_pos; lia. Qed.
Lemma second_neg z : (z < 0)%Z -> (second z < 0)%Z.
Proof. intros H. unfold second. apply Z.div_lt_upper_bound; lia. Qed.
Lemma now_le w : (second (w_now w) <= now_secs w)%Z /\ (0 <= now_secs w)%Z /\ ((0 <= w_now w)%Z -> now_secs w = second (w_now w)) /\ ((w_now w < 0)%Z -> now_secs w = 0%Z).
Proof.
  unfold now_secs, secs. change (w_now w / GIGA)%Z with (second (w_now w)). destruct (Z.ltb_spec (w_now w) 0) as [A|A].
  - pose proof (second_neg _ A). lia.
  - pose proof (second_nonneg _ A). lia.
Qed.
Lemma wrap_le z : (0 <= z)%Z -> (wrap64 z <= z)%Z.
Proof. intros H. apply Z.mod_le; lia. Qed.
Lemma wrap_id z : (0 <= z < 2 ^ 64)%Z -> wrap64 z = z.
Proof. intros H. apply Z.mod_small. exact H. Qed.

Lemma entry_new_some w pkg path ttl e : entry_new w pkg path ttl = Some e <->
  exists ns x, (0 <= w_now w)%Z /\ (0 <= ns)%Z /\ w_file w path = Some (ns, x) /\ e = mkRentry pkg (second (w_now w)) ttl path (second ns).
Proof.
  unfold entry_new. split.
  - destruct (secs (w_now w)) as [t|] eqn:A; [|discriminate]. destruct (w_file w path) as [[ns x]|] eqn:B; [|discriminate]. destruct (secs ns) as [m|] eqn:C; [|discriminate].
    intros [= <-]. apply secs_some in A, C. destruct A as [A ->], C as [C ->]. exists ns, x. auto.
  - intros (ns & x & A & B & C & ->). rewrite (proj2 (secs_some _ _) (conj A eq_refl)), C, (proj2 (secs_some _ _) (conj B eq_refl)). reflexivity.
Qed.
Lemma stores_entry w wc ord wv we k' v' path' ttl k v path t m x : stores (RPut w wc ord wv we k' v' path') k v path t m x ->
  k' = k /\ v' = v /\ path' = path /\ w_write w = true /\ entry_new w v path ttl = Some (mkRentry v t ttl path m).
Proof. intros (-> & -> & -> & W & N & -> & ns & A & B & ->). do 4 (split; [auto|]). apply entry_new_some. exists ns, x. auto. Qed.
Lemma entry_stores w wc ord wv we k v path ttl e : w_write w = true -> entry_new w v path ttl = Some e ->
  exists x, stores (RPut w wc ord wv we k v path) k v (re_path e) (re_time e) (re_mtime e) x /\ re_package e = v /\ re_ttl e = ttl.
Proof. intros W E. apply entry_new_some in E. destruct E as (ns & x & A & B & C & ->). exists x. cbn. repeat split; auto. exists ns. auto. Qed.

Lemma rvalid_sound w e : (0 <= re_time e)%Z -> (0 <= re_ttl e)%Z -> rvalid w e = true -> in_time (re_ttl e) w (re_time e) /\ not_later w (re_path e) (re_mtime e).
Proof.
  intros A B. unfold rvalid. destruct (Z.ltb_spec (wrap64 (re_time e + re_ttl e)) (now_secs w)) as [L|L]; [discriminate|]. intros H. split.
  - unfold in_time. pose proof (wrap_le (re_time e + re_ttl e)). pose proof (now_le w). lia.
  - intros ns x F G. rewrite F in H. rewrite (proj2 (secs_some _ _) (conj G eq_refl)) in H. apply Z.leb_le in H. exact H.
Qed.
Lemma rvalid_complete w e : (0 <= re_time e)%Z -> (0 <= re_ttl e)%Z -> (re_time e + re_ttl e < 2 ^ 64)%Z ->
  in_time (re_ttl e) w (re_time e) -> not_later w (re_path e) (re_mtime e) -> rvalid w e = true.
Proof.
  intros A B C D E. unfold rvalid. rewrite wrap_id by lia. destruct (Z.ltb_spec (re_time e + re_ttl e) (now_secs w)) as [L|L].
  - unfold in_time in D. pose proof (now_le w). destruct (Z.ltb_spec (w_now w) 0); lia.
  - destruct (w_file w (re_path e)) as [[ns x]|] eqn:F; [|reflexivity]. destruct (secs ns) as [s|] eqn:G; [|reflexivity]. apply secs_some in G. destruct G as [G ->]. apply Z.leb_le. exact (E _ _ F G).
Qed.

Lemma drop_keys_sub wv ks : forall i d b i' d', drop_keys wv ks i d = (b, i', d') ->
  (forall k e, aget k i' = Some e -> aget k i = Some e) /\ (forall k, ~ In k ks -> aget k i' = aget k i) /\ (NoDup (akeys i) -> NoDup (akeys i')) /\ length i' <= length i.
Proof.
  induction ks as [|k ks IH]; intros i d b i' d' H; cbn in H; [injection H as <- <- <-; auto|].
  assert (D : forall j e, aget j (adel k i) = Some e -> aget j i = Some e).
  { intros j e E. destruct (list_eq_dec ascii_dec j k) as [->|N]; [rewrite aget_del_same in E; discriminate|rewrite aget_del_other in E by exact N; exact E]. }
  assert (L : length (adel k i) <= length i) by apply del_len.
  destruct (remove_file (wv k) k d) as [[|] d1] eqn:R.
  - destruct (IH _ _ _ _ _ H) as (A & B & C & F). split; [|split; [|split]].
    + intros j e E. exact (D _ _ (A _ _ E)).
    + intros j N. rewrite B by (intros K; apply N; now right). apply aget_del_other. intros ->. apply N. now left.
    + intros N. apply C. apply nodup_del. exact N.
    + lia.
  - injection H as <- <- <-. split; [exact D|]. split; [|split; [apply nodup_del|exact L]]. intros j N. apply aget_del_other. intros ->. apply N. now left.
Qed.
Lemma drop_keys_gone wv ks : forall i d i' d', drop_keys wv ks i d = (true, i', d') -> forall k, In k ks -> aget k i' = None.
Proof.
  induction ks as [|k ks IH]; intros i d i' d' H j J; cbn in H; [destruct J|]. destruct (remove_file (wv k) k d) as [[|] d1] eqn:R; [|discriminate].
  destruct J as [->|J]; [|exact (IH _ _ _ _ H _ J)]. destruct (drop_keys_sub _ _ _ _ _ _ _ H) as (A & _). destruct (aget j i') as [e|] eqn:E; [|reflexivity].
  apply A in E. rewrite aget_del_same in E. discriminate.
Qed.

Definition within (c c' : rcache) : Prop := forall k e, aget k (r_index c') = Some e -> aget k (r_index c) = Some e.
Definition keys_ok (c : rcache) : Prop := NoDup (akeys (r_index c)).
Lemma bad_keys ord wv c k : any_order ord -> keys_ok c -> In k (ord (akeys (filter (fun e => negb (rvalid (wv (fst e)) (snd e))) (r_index c)))) <->
  exists e, aget k (r_index c) = Some e /\ rvalid (wv k) e = false.
Proof.
  intros O N. split.
  - intros H. apply (Permutation_in _ (O _)) in H. apply in_map_iff in H. destruct H as ([k' e] & <- & H). apply filter_In in H. destruct H as [A B]. cbn in *.
    exists e. split; [apply aget_nodup; assumption|]. destruct (rvalid (wv k') e); [discriminate|reflexivity].
  - intros (e & A & B). apply (Permutation_in _ (Permutation_sym (O _))). apply in_map_iff. exists (k, e). split; [reflexivity|]. apply filter_In. split; [apply aget_in; exact A|]. cbn. rewrite B. reflexivity.
Qed.
Lemma cleanup_spec ord wv we c : let (b, c') := rcleanup ord wv we c in
  within c c' /\ (keys_ok c -> keys_ok c') /\ length (r_index c') <= length (r_index c) /\ r_hits c' = r_hits c /\ r_misses c' = r_misses c /\
  (b = true -> r_entries c' = length (r_index c')) /\ (b = false -> r_entries c' = r_entries c).
Proof.
  unfold rcleanup. destruct (drop_keys _ _ _ _) as [[[|] i] d] eqn:E; destruct (drop_keys_sub _ _ _ _ _ _ _ E) as (A & _ & B & C); cbn; repeat split; auto; discriminate.
Qed.
Lemma cleanup_keeps ord wv we c k e : any_order ord -> keys_ok c -> aget k (r_index c) = Some e -> rvalid (wv k) e = true -> aget k (r_index (snd (rcleanup ord wv we c))) = Some e.
Proof.
  intros O N E V. unfold rcleanup. destruct (drop_keys _ _ _ _) as [[b i] d] eqn:D. destruct (drop_keys_sub _ _ _ _ _ _ _ D) as (_ & B & _).
  assert (K : aget k i = Some e). { rewrite B; [exact E|]. rewrite bad_keys by assumption. intros (e' & A & F). congruence. }
  destruct b; exact K.
Qed.
Lemma cleanup_drops ord wv we c k e : any_order ord -> keys_ok c -> fst (rcleanup ord wv we c) = true -> aget k (r_index (snd (rcleanup ord wv we c))) = Some e -> rvalid (wv k) e = true.
Proof.
  intros O N. unfold rcleanup. destruct (drop_keys _ _ _ _) as [[b i] d] eqn:D. destruct b; cbn; [|discriminate]. intros _ E.
  destruct (drop_keys_sub _ _ _ _ _ _ _ D) as (A & _). pose proof (A _ _ E) as F. destruct (rvalid (wv k) e) eqn:V; [reflexivity|].
  rewrite (drop_keys_gone _ _ _ _ _ _ D k) in E; [discriminate|]. apply bad_keys; try assumption. exists e. auto.
Qed.
Lemma cleanup_if_spec cfg wc ord wv we c : let (b, c') := rcleanup_if cfg wc ord wv we c in
  within c c' /\ (keys_ok c -> keys_ok c') /\ length (r_index c') <= length (r_index c) /\ r_hits c' = r_hits c /\ r_misses c' = r_misses c /\
  (r_entries c = length (r_index c) -> b = true -> r_entries c' = length (r_index c')) /\ (length (r_index c) <= r_entries c -> length (r_index c') <= r_entries c').
Proof.
  unfold rcleanup_if. destruct (match r_last c with Some _ => _ | None => _ end).
  - pose proof (cleanup_spec ord wv we c) as H. destruct (rcleanup ord wv we c) as [b c']. destruct H as (A & B & C & D & E & F & G). repeat split; auto.
    destruct b; [rewrite F by reflexivity|rewrite G by reflexivity]; lia.
  - repeat split; auto. intros k e H. exact H.
Qed.
Lemma cleanup_if_keeps cfg wc ord wv we c k e : any_order ord -> keys_ok c -> aget k (r_index c) = Some e -> rvalid (wv k) e = true -> aget k (r_index (snd (rcleanup_if cfg wc ord wv we c))) = Some e.
Proof. intros O N E V. unfold rcleanup_if. destruct (match r_last c with Some _ => _ | None => _ end); [apply cleanup_keeps; assumption|exact E]. Qed.

Section Files.
Variable write_entry : rentry -> text.
Variable cfg : rcfg.
Notation exec := (rexec write_entry cfg).
Notation after os := (rafter write_entry cfg os new_rcache).

Lemma after_snoc os o : after (os ++ [o]) = exec o (after os).
Proof. unfold rafter. rewrite fold_left_app. reflexivity. Qed.
Lemma exec_keys o c : keys_ok c -> keys_ok (exec o c).
Proof.
  intros N. destruct o as [w k|w wc ord wv we k pkg path|w k|w|ord wv we]; cbn [rexec].
  - unfold rget. destruct (aget k (r_index c)) as [e|]; [|exact N]. destruct (rvalid w e); [exact N|]. destruct (remove_file w k (r_disk c)) as [[|] d]; apply nodup_del; exact N.
  - unfold rput. destruct (entry_new w pkg path (rc_ttl cfg)) as [e|]; [|exact N]. destruct (w_write w); [|exact N].
    match goal with |- context [rcleanup_if cfg wc ord wv we ?x] => pose proof (cleanup_if_spec cfg wc ord wv we x) as H end. destruct (rcleanup_if _ _ _ _ _ _) as [b c']. apply H. apply nodup_put. exact N.
  - unfold rremove. destruct (ahas k (r_index c)); [|exact N]. destruct (remove_file w k (r_disk c)) as [[|] d]; apply nodup_del; exact N.
  - unfold rclear. destruct (w_remove w); constructor.
  - pose proof (cleanup_spec ord wv we c) as H. destruct (rcleanup ord wv we c) as [b c']. apply H. exact N.
Qed.
Lemma after_keys os : keys_ok (after os).
Proof. induction os as [|o os IH] using rev_ind; [constructor|]. rewrite after_snoc. apply exec_keys. exact IH. Qed.

Lemma newest_snoc os o k v path t m x : newest os k v path t m x -> ~ discards o k -> (forall v' path' t' m' x', ~ stores o k v' path' t' m' x') -> newest (os ++ [o]) k v path t m x.
Proof.
  intros (u & p & r & -> & A & B) D E. exists u, p, (r ++ [o]). split; [rewrite <- app_assoc; reflexivity|]. split; [exact A|].
  intros o' H. apply in_app_iff in H. destruct H as [H|[<-|[]]]; [exact (B _ H)|]. split; assumption.
Qed.
(** what the index holds *)
Definition known os (k : text) (e : rentry) : Prop := exists x, newest os k (re_package e) (re_path e) (re_time e) (re_mtime e) x /\ re_ttl e = rc_ttl cfg /\ (0 <= re_time e)%Z.
Lemma known_snoc os o k e : known os k e -> ~ discards o k -> (forall v' path' t' m' x', ~ stores o k v' path' t' m' x') -> known (os ++ [o]) k e.
Proof. intros (x & A & B) D E. exists x. split; [apply newest_snoc; assumption|exact B]. Qed.
Lemma after_known os : forall k e, aget k (r_index (after os)) = Some e -> known os k e.
Proof.
  induction os as [|o os IH] using rev_ind; [intros k e H; discriminate H|]. rewrite after_snoc. intros j e H. set (c := after os) in *.
  destruct o as [w k|w wc ord wv we k pkg path|w k|w|ord wv we]; cbn [rexec] in H.
  - apply known_snoc; [|intros []|intros v' path' t' m' x' []]. apply IH. unfold rget in H. destruct (aget k (r_index c)) as [e'|] eqn:E; [|exact H].
    destruct (rvalid w e'); [exact H|]. assert (K : aget j (adel k (r_index c)) = Some e) by (destruct (remove_file w k (r_disk c)) as [[|] d]; exact H).
    destruct (list_eq_dec ascii_dec j k) as [->|N]; [rewrite aget_del_same in K; discriminate|rewrite aget_del_other in K by exact N; exact K].
  - unfold rput in H. destruct (entry_new w pkg path (rc_ttl cfg)) as [e'|] eqn:E; [destruct (w_write w) eqn:W|].
    + match goal with H : context [rcleanup_if cfg wc ord wv we ?x] |- _ => pose proof (cleanup_if_spec cfg wc ord wv we x) as S1 end. destruct (rcleanup_if _ _ _ _ _ _) as [b c']. apply S1 in H. cbn [r_index] in H.
      destruct (list_eq_dec ascii_dec j k) as [->|N].
      * rewrite aget_put_same in H. injection H as <-. destruct (entry_stores w wc ord wv we k pkg path _ _ W E) as (x & A & B & C). exists x. rewrite B. split; [|split; [exact C|]].
        -- exists os, (RPut w wc ord wv we k pkg path), []. split; [reflexivity|]. split; [exact A|]. intros o' [].
        -- destruct A as (_ & _ & _ & _ & P & -> & _). apply second_nonneg. exact P.
      * rewrite aget_put_other in H by exact N. apply known_snoc; [exact (IH _ _ H)|intros []|]. intros v' path' t' m' x' (K & _). congruence.
    + apply known_snoc; [exact (IH _ _ H)|intros []|]. intros v' path' t' m' x' (_ & _ & _ & K & _). congruence.
    + apply known_snoc; [exact (IH _ _ H)|intros []|]. intros v' path' t' m' x' S1. apply (stores_entry _ _ _ _ _ _ _ _ (rc_ttl cfg)) in S1. destruct S1 as (_ & -> & -> & _ & K). congruence.
  - unfold rremove in H. destruct (ahas k (r_index c)) eqn:E.
    + assert (K : aget j (adel k (r_index c)) = Some e) by (destruct (remove_file w k (r_disk c)) as [[|] d]; exact H).
      destruct (list_eq_dec ascii_dec j k) as [->|N]; [rewrite aget_del_same in K; discriminate|]. rewrite aget_del_other in K by exact N.
      apply known_snoc; [exact (IH _ _ K)| |intros v' path' t' m' x' []]. intros A. apply N. symmetry. exact A.
    + apply known_snoc; [exact (IH _ _ H)| |intros v' path' t' m' x' []]. cbn. intros ->. unfold ahas in E. cbn [snd] in H. rewrite H in E. discriminate.
  - unfold rclear in H. destruct (w_remove w); discriminate H.
  - apply known_snoc; [|intros []|intros v' path' t' m' x' []]. apply IH. pose proof (cleanup_spec ord wv we c) as S1. destruct (rcleanup ord wv we c) as [b c']. apply S1. exact H.
Qed.
Theorem rserved os w k v : (0 <= rc_ttl cfg)%Z -> fst (rget w k (after os)) = Some (Some v) ->
  exists path t m x, newest os k v path t m x /\ in_time (rc_ttl cfg) w t /\ not_later w path m.
Proof.
  intros P H. unfold rget in H. destruct (aget k (r_index (after os))) as [e|] eqn:E; [|discriminate]. destruct (rvalid w e) eqn:V.
  - injection H as <-. destruct (after_known os k e E) as (x & A & B & C). rewrite <- B in *. destruct (rvalid_sound w e C P V) as [D F]. exists (re_path e), (re_time e), (re_mtime e), x. auto.
  - destruct (remove_file w k (r_disk (after os))) as [[|] d]; discriminate.
Qed.

Lemma exec_holds o c k e : keys_ok c -> any_orders o -> aget k (r_index c) = Some e -> ~ discards o k -> (forall v' path' t' m' x', ~ stores o k v' path' t' m' x') ->
  (forall w, looks o k w -> rvalid w e = true) -> aget k (r_index (exec o c)) = Some e.
Proof.
  intros N O E D S1 L. destruct o as [w j|w wc ord wv we j pkg path|w j|w|ord wv we]; cbn [rexec] in *.
  - unfold rget. destruct (aget j (r_index c)) as [e'|] eqn:F; [|exact E]. destruct (rvalid w e') eqn:V; [exact E|].
    assert (M : k <> j). { intros <-. rewrite E in F. injection F as <-. rewrite (L w) in V; [discriminate|]. split; reflexivity. }
    destruct (remove_file w j (r_disk c)) as [[|] d]; cbn; rewrite aget_del_other by exact M; exact E.
  - unfold rput. destruct (entry_new w pkg path (rc_ttl cfg)) as [e'|] eqn:F; [|exact E]. destruct (w_write w) eqn:W; [|exact E].
    apply cleanup_if_keeps; [exact O|apply nodup_put; exact N| |exact (L _ eq_refl)]. cbn [r_index]. rewrite aget_put_other; [exact E|]. intros <-.
    destruct (entry_stores w wc ord wv we k pkg path _ _ W F) as (x & A & _). exact (S1 _ _ _ _ _ A).
  - unfold rremove. destruct (ahas j (r_index c)); [|exact E]. assert (M : k <> j) by (intros ->; apply D; reflexivity).
    destruct (remove_file w j (r_disk c)) as [[|] d]; cbn; rewrite aget_del_other by exact M; exact E.
  - exfalso. apply D. exact I.
  - apply cleanup_keeps; [exact O|exact N|exact E|exact (L _ eq_refl)].
Qed.
Lemma held u o r k v path t m x : stores o k v path t m x -> (forall o', In o' r -> ~ discards o' k /\ forall v' path' t' m' x', ~ stores o' k v' path' t' m' x') ->
  (forall o', In o' (o :: r) -> any_orders o') -> (forall o' w, In o' (o :: r) -> looks o' k w -> rvalid w (mkRentry v t (rc_ttl cfg) path m) = true) ->
  aget k (r_index (after (u ++ o :: r))) = Some (mkRentry v t (rc_ttl cfg) path m).
Proof.
  intros A B O L. induction r as [|p r IH] using rev_ind.
  - change (u ++ [o]) with (u ++ [o]). rewrite after_snoc. destruct o as [|w wc ord wv we j pkg q| | |]; try destruct A. cbn [rexec]. subst j. rename H0 into A'.
    destruct (stores_entry w wc ord wv we k pkg q (rc_ttl cfg) k v path t m x (conj eq_refl A')) as (_ & -> & -> & W & E). unfold rput. rewrite E, W.
    apply cleanup_if_keeps; [exact (O _ (or_introl eq_refl))|apply nodup_put; apply after_keys|cbn; apply aget_put_same|]. apply (L _ _ (or_introl eq_refl)). reflexivity.
  - replace (u ++ o :: r ++ [p]) with ((u ++ o :: r) ++ [p]) by (rewrite <- app_assoc; reflexivity). rewrite after_snoc.
    assert (P : In p (o :: r ++ [p])) by (right; apply in_app_iff; right; now left).
    assert (Q : forall y, In y (o :: r) -> In y (o :: r ++ [p])) by (intros y [->|Y]; [now left|right; apply in_app_iff; now left]).
    destruct (B p) as [B1 B2]; [apply in_app_iff; right; now left|]. apply exec_holds; [apply after_keys|exact (O _ P)| |exact B1|exact B2|intros w; exact (L p w P)].
    apply IH; [intros y Y; apply B; apply in_app_iff; now left|intros y Y; exact (O _ (Q _ Y))|intros y w Y; exact (L y w (Q _ Y))].
Qed.
Theorem rkept u o r w k v path t m x : stores o k v path t m x -> (forall o', In o' r -> ~ discards o' k /\ forall v' path' t' m' x', ~ stores o' k v' path' t' m' x') ->
  (forall o', In o' (o :: r) -> any_orders o') -> (0 <= rc_ttl cfg)%Z -> (t + rc_ttl cfg < 2 ^ 64)%Z ->
  (forall w', (exists o', In o' (o :: r) /\ looks o' k w') \/ w' = w -> in_time (rc_ttl cfg) w' t /\ not_later w' path m) ->
  fst (rget w k (after (u ++ o :: r))) = Some (Some v).
Proof.
  intros A B O P Z1 L. assert (T0 : (0 <= t)%Z). { destruct o; try destruct A. destruct H0 as (_ & _ & _ & K & -> & _). apply second_nonneg. exact K. }
  assert (V : forall w', (exists o', In o' (o :: r) /\ looks o' k w') \/ w' = w -> rvalid w' (mkRentry v t (rc_ttl cfg) path m) = true).
  { intros w' H. destruct (L w' H) as [D E]. apply rvalid_complete; cbn; assumption. }
  unfold rget. rewrite (held u o r k v path t m x A B O).
  - rewrite V by (right; reflexivity). reflexivity.
  - intros o' w' I H. apply V. left. exists o'. auto.
Qed.

(** the statistics *)
Lemma exec_counts o c : removable o -> r_hits (exec o c) + r_misses (exec o c) = match o with RGet _ _ => S (r_hits c + r_misses c) | RClear w => if w_remove w then 0 else r_hits c + r_misses c | _ => r_hits c + r_misses c end.
Proof.
  intros R. destruct o as [w k|w wc ord wv we k pkg path|w k|w|ord wv we]; cbn [rexec].
  - unfold rget. destruct (aget k (r_index c)) as [e|]; [|cbn; lia]. destruct (rvalid w e); [cbn; lia|]. unfold remove_file. cbn in R. rewrite R. destruct (ahas _ _); cbn; lia.
  - unfold rput. destruct (entry_new w pkg path (rc_ttl cfg)) as [e|]; [|reflexivity]. destruct (w_write w); [|reflexivity].
    match goal with |- context [rcleanup_if cfg wc ord wv we ?x] => pose proof (cleanup_if_spec cfg wc ord wv we x) as H end. destruct (rcleanup_if _ _ _ _ _ _) as [b c']. destruct H as (_ & _ & _ & A & B & _). cbn in A, B. cbn [snd]. lia.
  - unfold rremove. destruct (ahas k (r_index c)); [|reflexivity]. destruct (remove_file w k (r_disk c)) as [[|] d]; reflexivity.
  - unfold rclear. destruct (w_remove w); reflexivity.
  - pose proof (cleanup_spec ord wv we c) as H. destruct (rcleanup ord wv we c) as [b c']. destruct H as (_ & _ & _ & A & B & _). cbn [snd]. lia.
Qed.
Theorem rcounts os : (forall o, In o os -> removable o) -> r_hits (after os) + r_misses (after os) = gets_rev (rev os).
Proof.
  induction os as [|o os IH] using rev_ind; [reflexivity|]. intros H. rewrite after_snoc, rev_unit, exec_counts by (apply H; apply in_app_iff; right; now left).
  assert (K : r_hits (after os) + r_misses (after os) = gets_rev (rev os)) by (apply IH; intros p P; apply H; apply in_app_iff; now left).
  destruct o; cbn [gets_rev]; rewrite ?K; reflexivity.
Qed.
Lemma exec_bound o c : length (r_index c) <= r_entries c -> length (r_index (exec o c)) <= r_entries (exec o c).
Proof.
  intros L. destruct o as [w k|w wc ord wv we k pkg path|w k|w|ord wv we]; cbn [rexec].
  - unfold rget. destruct (aget k (r_index c)) as [e|]; [|exact L]. destruct (rvalid w e); [exact L|]. pose proof (del_len k (r_index c)). destruct (remove_file w k (r_disk c)) as [[|] d]; cbn; lia.
  - unfold rput. destruct (entry_new w pkg path (rc_ttl cfg)) as [e|]; [|exact L]. destruct (w_write w); [|exact L].
    match goal with |- context [rcleanup_if cfg wc ord wv we ?x] => pose proof (cleanup_if_spec cfg wc ord wv we x) as H end. destruct (rcleanup_if _ _ _ _ _ _) as [b c']. apply H. cbn. lia.
  - unfold rremove. destruct (ahas k (r_index c)); [|exact L]. pose proof (del_len k (r_index c)). destruct (remove_file w k (r_disk c)) as [[|] d]; cbn; lia.
  - unfold rclear. destruct (w_remove w); cbn; lia.
  - pose proof (cleanup_spec ord wv we c) as H. destruct (rcleanup ord wv we c) as [b c']. destruct H as (_ & _ & A & _ & _ & B & C). cbn [snd]. destruct b; [rewrite B by reflexivity|rewrite C by reflexivity]; lia.
Qed.
Theorem rentries_bound os : length (r_index (after os)) <= r_entries (after os).
Proof. induction os as [|o os IH] using rev_ind; [cbn; lia|]. rewrite after_snoc. apply exec_bound. exact IH. Qed.

(** the files *)
Lemma key_file_inj k j : key_file k = key_file j -> k = j.
Proof. apply app_inv_tail. Qed.
Lemma remove_file_sub w k d f : ahas f (snd (remove_file w k d)) = true -> ahas f d = true.
Proof.
  unfold remove_file. destruct (ahas (key_file k) d); [|auto]. destruct (w_remove w); [|auto]. cbn. unfold ahas.
  destruct (list_eq_dec ascii_dec f (key_file k)) as [->|N]; [rewrite aget_del_same; discriminate|rewrite aget_del_other by exact N; auto].
Qed.
Lemma drop_keys_disk wv ks f : forall i d, ahas f (snd (drop_keys wv ks i d)) = true -> ahas f d = true.
Proof.
  induction ks as [|k ks IH]; intros i d H; cbn in H; [exact H|]. pose proof (remove_file_sub (wv k) k d f) as R. destruct (remove_file (wv k) k d) as [[|] d1]; [|exact (R H)]. apply R. exact (IH _ _ H).
Qed.
Lemma cleanup_disk ord wv we c f : ahas f (r_disk (snd (rcleanup ord wv we c))) = true -> ahas f (r_disk c) = true.
Proof. unfold rcleanup. intros H. pose proof (drop_keys_disk wv (ord (akeys (filter (fun e => negb (rvalid (wv (fst e)) (snd e))) (r_index c)))) f (r_index c) (r_disk c)) as D. destruct (drop_keys _ _ _ _) as [[[|] i] d]; apply D; exact H. Qed.
Theorem rdisk os f : ahas f (r_disk (after os)) = true -> exists k, f = key_file k /\ written os k.
Proof.
  assert (W : forall os o k, written os k -> written (os ++ [o]) k).
  { intros l o k (w & wc & ord & wv & we & v & path & H). exists w, wc, ord, wv, we, v, path. apply in_app_iff. now left. }
  induction os as [|o os IH] using rev_ind; [discriminate|]. rewrite after_snoc. intros H. set (c := after os) in *.
  assert (G : ahas f (r_disk c) = true -> exists k, f = key_file k /\ written (os ++ [o]) k) by (intros K; destruct (IH K) as (k & A & B); exists k; auto).
  destruct o as [w k|w wc ord wv we k pkg path|w k|w|ord wv we]; cbn [rexec] in H.
  - apply G. unfold rget in H. destruct (aget k (r_index c)) as [e|]; [|exact H]. destruct (rvalid w e); [exact H|]. pose proof (remove_file_sub w k (r_disk c) f) as R. destruct (remove_file w k (r_disk c)) as [[|] d]; exact (R H).
  - unfold rput in H. destruct (entry_new w pkg path (rc_ttl cfg)) as [e|]; [|exact (G H)]. destruct (w_write w); [|exact (G H)]. unfold rcleanup_if in H.
    assert (K : ahas f (aput (key_file k) (write_entry e) (r_disk c)) = true).
    { destruct (match r_last _ with Some _ => _ | None => _ end); [apply cleanup_disk in H|]; exact H. }
    destruct (list_eq_dec ascii_dec f (key_file k)) as [->|N].
    + exists k. split; [reflexivity|]. exists w, wc, ord, wv, we, pkg, path. apply in_app_iff. right. now left.
    + apply G. unfold ahas in *. rewrite aget_put_other in K by exact N. exact K.
  - apply G. unfold rremove in H. destruct (ahas k (r_index c)); [|exact H]. pose proof (remove_file_sub w k (r_disk c) f) as R. destruct (remove_file w k (r_disk c)) as [[|] d]; exact (R H).
  - apply G. unfold rclear in H. destruct (w_remove w); [discriminate|exact H].
  - apply G. apply cleanup_disk in H. exact H.
Qed.
Theorem reopened_empty read_index os : ~ written os (T "index") -> reopen read_index (r_disk (after os)) = Some (mkRcache [] (r_disk (after os)) 0 0 0 None).
Proof.
  intros N. unfold reopen. destruct (aget (T "index.json") (r_disk (after os))) as [x|] eqn:E; [|reflexivity]. exfalso. apply N.
  destruct (rdisk os (T "index.json")) as (k & A & B); [unfold ahas; rewrite E; reflexivity|]. replace (T "index") with k; [exact B|]. apply key_file_inj. rewrite <- A. reflexivity.
Qed.
End Files.
