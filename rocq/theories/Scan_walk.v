(** Proofs about the two scanners: directories, files, and caches. *)
From Verif Require Import Base Base_lemmas Maps Sorting Version_model Package_model Order_model Order_spec Order_proofs Scan_model Scan_spec Scan_proofs.
Open Scope string_scope. Open Scope list_scope.

(** ** Directories below one *)
Lemma below_trans d ok p j m k q : below d ok p j m -> below d ok m k q -> below d ok p (j + k) q.
Proof. intros H1 H2. induction H2 as [H|k x es e H2 IH Hl Hi Hk Ho]; [rewrite Nat.add_0_r; exact H1|]. rewrite Nat.add_succ_r. eapply B_step; eassumption. Qed.
Lemma below_ok d ok p k q : below d ok p k q -> ok p /\ ok q.
Proof. induction 1 as [H|k x es e H2 IH Hl Hi Hk Ho]; tauto. Qed.
Lemma below_inv d ok p k q : below d ok p (S k) q -> exists es e, d_list d p = Some es /\ In e es /\ d_kind d (child p e) = KDir /\ below d ok (child p e) k q.
Proof.
  remember (S k) as n eqn:En. intros H. revert k En. induction H as [H|k0 x es e H IH Hl Hi Hk Ho]; intros k En; [discriminate|]. injection En as ->. destruct k as [|k].
  - inversion H; subst. exists es, e. repeat split; try assumption. constructor. exact Ho.
  - destruct (IH k eq_refl) as [es1 [e1 [H1 [H2 [H3 H4]]]]]. exists es1, e1. repeat split; try assumption. eapply B_step; eassumption.
Qed.
Lemma below_cons d (ok : text -> Prop) p es e k q : ok p -> d_list d p = Some es -> In e es -> d_kind d (child p e) = KDir -> below d ok (child p e) k q -> below d ok p (S k) q.
Proof. intros Hp Hl Hi Hk H. apply (below_trans d ok p 1 (child p e) k q); [|exact H]. eapply B_step; try eassumption; [constructor; exact Hp|]. exact (proj1 (below_ok _ _ _ _ _ H)). Qed.
Lemma below_zero d ok p q : below d ok p 0 q <-> p = q /\ ok p.
Proof. split; [intros H; inversion H; subst; auto|intros [<- H]; constructor; exact H]. Qed.

Section Collect.
Variable d : disk.
Variable g : settings.
Let ok (p : text) : Prop := excluded g p = false.
Definition collect_list (k : nat) (p : text) : list text -> option (list text) :=
  fix loop (l : list text) : option (list text) :=
    match l with
    | [] => Some []
    | e :: r =>
      if is_dir (d_kind d (child p e)) && negb (excluded g (child p e))
      then match collect d g k (child p e), loop r with Some a, Some b => Some (a ++ b) | _, _ => None end
      else loop r
    end.
Lemma collect_step k p : collect d g (S k) p =
  if excluded g p then Some [] else match d_list d p with None => None | Some es => match collect_list k p es with Some ds => Some (p :: ds) | None => None end end.
Proof. reflexivity. Qed.
Lemma is_dir_iff k : is_dir k = true <-> k = KDir.
Proof. destruct k; cbn; split; congruence. Qed.
Lemma is_file_iff k : is_file k = true <-> k = KFile.
Proof. destruct k; cbn; split; congruence. Qed.
Lemma collect_spec n : forall p,
  match collect d g n p with
  | Some ds => forall q, In q ds <-> exists k, (k < n)%nat /\ below d ok p k q
  | None => exists k q, (k < n)%nat /\ below d ok p k q /\ d_list d q = None
  end.
Proof.
  induction n as [|n IH]; intros p.
  - cbn [collect]. intros q. split; [intros []|]. intros [k [H _]]. lia.
  - rewrite collect_step. destruct (excluded g p) eqn:Ex.
    + intros q. split; [intros []|]. intros [k [_ H]]. apply below_ok in H. unfold ok in H. rewrite Ex in H. destruct H; discriminate.
    + destruct (d_list d p) as [es|] eqn:El; [|exists 0%nat, p; split; [lia|split; [constructor; exact Ex|exact El]]].
      assert (L : forall l, match collect_list n p l with
        | Some ds => forall q, In q ds <-> exists e k, In e l /\ d_kind d (child p e) = KDir /\ (k < n)%nat /\ below d ok (child p e) k q
        | None => exists e k q, In e l /\ d_kind d (child p e) = KDir /\ (k < n)%nat /\ below d ok (child p e) k q /\ d_list d q = None end).
      { induction l as [|e l IHl]; cbn [collect_list]; [intros q; split; [intros []|intros [e [k [[] _]]]]|]. fold (collect_list n p).
        destruct (is_dir (d_kind d (child p e)) && negb (excluded g (child p e))) eqn:Ed.
        - apply andb_true_iff in Ed. destruct Ed as [Ed Ee]. apply is_dir_iff in Ed. specialize (IH (child p e)). destruct (collect d g n (child p e)) as [a|].
          + destruct (collect_list n p l) as [b|].
            * intros q. rewrite in_app_iff, IH, IHl. split.
              -- intros [[k [H1 H2]]|[e2 [k [H1 [H2 [H3 H4]]]]]]; [exists e, k; cbn [In]; auto|exists e2, k; cbn [In]; auto].
              -- intros [e2 [k [[<-|H1] [H2 [H3 H4]]]]]; [left; eauto|right; exists e2, k; auto].
            * destruct IHl as [e2 [k [q [H1 [H2 [H3 [H4 H5]]]]]]]. exists e2, k, q. cbn [In]. tauto.
          + destruct IH as [k [q [H1 [H2 H3]]]]. exists e, k, q. cbn [In]. tauto.
        - assert (Hno : d_kind d (child p e) = KDir -> ~ ok (child p e)).
          { intros Hk Ho. unfold ok in Ho. rewrite Hk, Ho in Ed. discriminate. }
          destruct (collect_list n p l) as [b|].
          + intros q. rewrite IHl. split; intros [e2 [k [H1 [H2 [H3 H4]]]]]; exists e2, k; cbn [In] in *; [tauto|]. destruct H1 as [<-|H1]; [exfalso; exact (Hno H2 (proj1 (below_ok _ _ _ _ _ H4)))|tauto].
          + destruct IHl as [e2 [k [q [H1 [H2 [H3 [H4 H5]]]]]]]. exists e2, k, q. cbn [In]. tauto. }
      specialize (L es). destruct (collect_list n p es) as [ds|].
      * intros q. cbn [In]. rewrite L. split.
        -- intros [<-|[e [k [H1 [H2 [H3 H4]]]]]]; [exists 0%nat; split; [lia|constructor; exact Ex]|]. exists (S k). split; [lia|]. eapply below_cons; eassumption.
        -- intros [[|k] [H1 H2]]; [apply below_zero in H2; left; tauto|]. right. apply below_inv in H2. destruct H2 as [es2 [e [H3 [H4 [H5 H6]]]]]. rewrite El in H3. injection H3 as <-. exists e, k. repeat split; try assumption. lia.
      * destruct L as [e [k [q [H1 [H2 [H3 [H4 H5]]]]]]]. exists (S k), q. split; [lia|]. split; [eapply below_cons; eassumption|exact H5].
Qed.
Lemma files_in_spec dir file : In file (files_in d g dir) <-> package_in d (fun e => package_file g e = true) dir file.
Proof.
  unfold files_in, package_in. destruct (d_list d dir) as [es|]; [|split; [intros []|intros [es [e [H _]]]; discriminate]]. rewrite in_map_iff. split.
  - intros [e [<- H]]. apply filter_In in H. destruct H as [H1 H2]. apply andb_true_iff in H2. destruct H2 as [H2 H3]. apply is_file_iff in H2. exists es, e. repeat split; assumption.
  - intros [es' [e [H1 [H2 [H3 [-> H4]]]]]]. injection H1 as <-. exists e. split; [reflexivity|]. apply filter_In. split; [assumption|]. apply andb_true_iff. split; [apply is_file_iff; exact H4|exact H3].
Qed.
End Collect.

(** ** Files *)
Lemma child_inj p n q m : ~ In "/"%char n -> ~ In "/"%char m -> child p n = child q m -> p = q /\ n = m.
Proof.
  unfold child. revert q. induction p as [|c p IH]; intros [|x q] Hn Hm E; cbn [app] in E.
  - injection E as ->. auto.
  - injection E as <- ->. exfalso. apply Hn, in_elt.
  - injection E as -> <-. exfalso. apply Hm, in_elt.
  - injection E as <- E. destruct (IH q Hn Hm E) as [-> ->]. auto.
Qed.
Lemma aput_sub {A} k (v : A) m k' v' : In (k', v') (aput k v m) -> (k' = k /\ v' = v) \/ In (k', v') m.
Proof.
  induction m as [|[x y] m IH]; cbn [aput In]; [intros [E|[]]; injection E as <- <-; auto|]. destruct (text_eqb_spec k x) as [->|_]; cbn [In].
  - intros [E|H]; [injection E as <- <-; auto|auto].
  - intros [E|H]; [auto|]. destruct (IH H); auto.
Qed.
Lemma length_split {A} (f : A -> bool) l : (length (filter f l) + length (filter (fun x => negb (f x)) l) = length l)%nat.
Proof. induction l as [|x l IH]; [reflexivity|]. cbn [filter]. destruct (f x); cbn [negb length]; lia. Qed.
Lemma nodup_filter {A} (f : A -> bool) l : NoDup l -> NoDup (filter f l).
Proof. induction 1 as [|x l H1 H2 IH]; cbn [filter]; [constructor|]. destruct (f x); [constructor; [intros X; apply filter_In in X; tauto|exact IH]|exact IH]. Qed.
Lemma length_without l old : NoDup l -> NoDup old -> incl old l -> (length (filter (fun x => negb (mem_text x old)) l) = length l - length old)%nat.
Proof.
  intros Hl Ho Hi. pose proof (length_split (fun x => mem_text x old) l) as H. assert (P : Permutation (filter (fun x => mem_text x old) l) old).
  { apply NoDup_Permutation; [apply nodup_filter, Hl|exact Ho|]. intros x. rewrite filter_In, mem_text_In. split; [tauto|]. intros X. split; [apply Hi, X|exact X]. }
  apply Permutation_length in P. cbv beta in H. lia.
Qed.
Lemma length_akeep {A} f (c : list (text * A)) : length (akeep f c) = length (filter f (akeys c)).
Proof. induction c as [|[k v] c IH]; [reflexivity|]. unfold akeep, akeys in *. cbn [filter map fst]. destruct (f k); cbn [length]; rewrite IH; reflexivity. Qed.
Lemma firstn_incl {A} n (l : list A) : incl (firstn n l) l.
Proof. intros x H. rewrite <- (firstn_skipn n l). apply in_app_iff. left. exact H. Qed.
Lemma nodup_firstn {A} n (l : list A) : NoDup l -> NoDup (firstn n l).
Proof. intros H. revert n. induction H as [|x l H1 H2 IH]; intros [|n]; cbn [firstn]; try constructor; [|apply IH]. intros X. apply H1, (firstn_incl n l), X. Qed.

Section Scan.
Variable load : text -> option package.
Variable d : disk.
Variable g : settings.
(** what a scan of a file gives without a cache *)
Definition fresh (dir file : text) : option found :=
  match d_stat d file, d_text d file with
  | Some (_, size), Some t => match load t with Some p => Some (mkFound p file dir size) | None => None end
  | _, _ => None
  end.
Lemma fresh_holds dir file r : fresh dir file = Some r <-> exists p size, holds load d file p size /\ r = mkFound p file dir size.
Proof.
  unfold fresh, holds. split.
  - destruct (d_stat d file) as [[time size]|]; [|discriminate]. destruct (d_text d file) as [t|]; [|discriminate]. destruct (load t) as [p|] eqn:El; [|discriminate]. intros E. injection E as <-. exists p, size. split; [|reflexivity]. exists time, t. auto.
  - intros [p [size [[time [t [H1 [H2 H3]]]] ->]]]. rewrite H1, H2, H3. reflexivity.
Qed.
Lemma fresh_none dir file : fresh dir file = None <-> forall p size, ~ holds load d file p size.
Proof.
  split.
  - intros H p size X. assert (Y : fresh dir file = Some (mkFound p file dir size)) by (apply fresh_holds; eauto). congruence.
  - intros H. destruct (fresh dir file) as [r|] eqn:E; [|reflexivity]. apply fresh_holds in E. destruct E as [p [size [X _]]]. exfalso. exact (H p size X).
Qed.
Lemma evict_sub c x : In x (evict g c) -> In x c.
Proof. unfold evict. destruct (_ <? _)%nat; [|auto]. unfold akeep. intros H. apply filter_In in H. tauto. Qed.
Lemma evict_bound c : NoDup (akeys c) -> (length (evict g c) <= g_cache_mb g * 1000)%nat.
Proof.
  intros Hn. unfold evict. destruct (Nat.ltb_spec (g_cache_mb g * 1000) (length c)) as [H|H]; [|exact H]. set (s := sort_by _ c). rewrite length_akeep, length_without.
  - rewrite map_length, firstn_length. unfold s. rewrite sort_length. unfold akeys. rewrite map_length. lia.
  - exact Hn.
  - assert (E : map fst (firstn (length c - g_cache_mb g * 800) s) = firstn (length c - g_cache_mb g * 800) (map fst s)) by (symmetry; apply firstn_map). rewrite E. apply nodup_firstn. eapply Permutation_NoDup; [apply Permutation_map; symmetry; apply sort_perm|exact Hn].
  - intros x Hx. apply in_map_iff in Hx. destruct Hx as [y [<- Hy]]. apply firstn_incl in Hy. unfold s in Hy. apply sort_in in Hy. apply in_map, Hy.
Qed.
Lemma evict_nodup c : NoDup (akeys c) -> NoDup (akeys (evict g c)).
Proof. intros H. unfold evict. destruct (_ <? _)%nat; [apply nodup_keep, H|exact H]. Qed.
Lemma scan_file_faithful now dir n c : ~ In "/"%char n -> faithful load d c ->
  fst (scan_file load d g now dir (child dir n) c) = fresh dir (child dir n) /\ faithful load d (snd (scan_file load d g now dir (child dir n) c)).
Proof.
  intros Hn Hf. set (file := child dir n). unfold scan_file, fresh. destruct (d_stat d file) as [[time size]|] eqn:Es; [|auto].
  destruct (g_cache g) eqn:Eg.
  - destruct (match aget file c with Some e => if N.eqb (n_time e) time && N.eqb (n_size e) size then Some (n_result e) else None | None => None end) as [r|] eqn:Eh.
    + cbn [fst snd]. split; [|exact Hf]. destruct (aget file c) as [e|] eqn:Ea; [|discriminate]. destruct (N.eqb (n_time e) time && N.eqb (n_size e) size) eqn:Eb; [|discriminate]. apply andb_true_iff in Eb. rewrite !N.eqb_eq in Eb. destruct Eb as [<- <-]. injection Eh as <-. apply aget_in in Ea.
      destruct (Hf file e Ea Es) as [[p [[tm [t [H1 [H2 H3]]]] H4]] [H5 [[m [H6 Hm]] H7]]]. rewrite H2, H3. f_equal. apply child_inj in H6; [|exact Hn|exact Hm]. destruct H6 as [H6 _]. destruct (n_result e) as [a b x y]. cbn in *. subst. reflexivity.
    + destruct (d_text d file) as [t|] eqn:Et; [|auto]. destruct (load t) as [p|] eqn:El; [|auto]. cbn [fst snd]. split; [reflexivity|].
      intros f e Hin Hs. apply evict_sub, aput_sub in Hin. destruct Hin as [[-> ->]|Hin]; [|exact (Hf f e Hin Hs)]. cbn [n_result n_time n_size o_package o_file o_dir o_size] in *. split; [exists p; split; [exists time, t; auto|reflexivity]|]. split; [reflexivity|]. split; [exists n; auto|reflexivity].
  - destruct (d_text d file) as [t|]; [|auto]. destruct (load t) as [p|]; auto.
Qed.
Lemma scan_file_cache now dir file c : NoDup (akeys c) -> (length c <= g_cache_mb g * 1000)%nat ->
  NoDup (akeys (snd (scan_file load d g now dir file c))) /\ (length (snd (scan_file load d g now dir file c)) <= g_cache_mb g * 1000)%nat.
Proof.
  intros H1 H2. unfold scan_file. destruct (d_stat d file) as [[time size]|]; [|auto]. destruct (if g_cache g then _ else _); [auto|]. destruct (d_text d file); [|auto]. destruct (load t); [|auto]. cbn [snd]. destruct (g_cache g); [|auto].
  split; [apply evict_nodup, nodup_put, H1|apply evict_bound, nodup_put, H1].
Qed.
Lemma visits now fs : forall c dirs, (forall dir file, In (dir, file) fs -> exists n, file = child dir n /\ ~ In "/"%char n) -> faithful load d c ->
  let z := fold_left (visit load d g now) fs (mkScanned [] [] dirs 0 c) in
  NoDup (akeys (z_packages z)) /\ (forall file r, In (file, r) (z_packages z) <-> exists dir, In (dir, file) fs /\ fresh dir file = Some r) /\
  (forall file, In file (z_errors z) <-> exists dir, In (dir, file) fs /\ fresh dir file = None) /\ z_files z = length fs /\ z_dirs z = dirs /\ faithful load d (z_cache z).
Proof.
  intros c dirs. cbv zeta. induction fs as [|[dir file] fs IH] using rev_ind; intros Hd Hf.
  - cbn. split; [constructor|]. split; [intros f r; split; [intros []|intros [x [[] _]]]|]. split; [intros f; split; [intros []|intros [x [[] _]]]|]. split; [reflexivity|]. split; [reflexivity|]. exact Hf.
  - rewrite fold_left_app. cbn [fold_left]. destruct IH as [H1 [H2 [H3 [H4 [H5 H6]]]]]; [intros a b X; apply Hd, in_app_iff; left; exact X|exact Hf|]. set (z := fold_left _ fs _) in *.
    destruct (Hd dir file) as [n [-> Hn]]; [apply in_app_iff; right; left; reflexivity|]. unfold visit. destruct (scan_file_faithful (now (child dir n)) dir n (z_cache z) Hn H6) as [Ef Fc].
    assert (Hlast : forall x f, In (x, f) (fs ++ [(dir, child dir n)]) <-> In (x, f) fs \/ (x = dir /\ f = child dir n)).
    { intros x f. rewrite in_app_iff. cbn [In]. split; intros [X|X]; auto; [destruct X as [X|[]]; injection X as <- <-; auto|destruct X as [-> ->]; auto]. }
    assert (Hsame : forall x, In (x, child dir n) (fs ++ [(dir, child dir n)]) -> x = dir).
    { intros x X. destruct (Hd x (child dir n) X) as [m [E Hm]]. apply child_inj in E; [|exact Hn|exact Hm]. symmetry. tauto. }
    destruct (scan_file load d g (now (child dir n)) dir (child dir n) (z_cache z)) as [[r|] c']; cbn [fst snd] in Ef, Fc; cbn [z_packages z_errors z_files z_dirs z_cache].
    + split; [apply nodup_put, H1|]. split; [|split; [|split; [|split; [exact H5|exact Fc]]]].
      * intros f r2. rewrite (aput_in _ _ _ _ _ H1), H2. split.
        -- intros [[-> ->]|[Hne [x [Hx Ex]]]]; [exists dir; split; [apply Hlast; auto|congruence]|exists x; split; [apply Hlast; auto|exact Ex]].
        -- intros [x [Hx Ex]]. destruct (text_eqb_spec f (child dir n)) as [->|Hne].
           ++ apply Hsame in Hx. subst x. left. split; [reflexivity|congruence].
           ++ right. split; [exact Hne|]. exists x. apply Hlast in Hx. split; [tauto|exact Ex].
      * intros f. rewrite H3. split; intros [x [Hx Ex]]; exists x; (split; [|exact Ex]); [apply Hlast; auto|]. pose proof Hx as Hx'. apply Hlast in Hx. destruct Hx as [Hx|[-> ->]]; [exact Hx|]. congruence.
      * rewrite app_length, H4. cbn [length]. lia.
    + split; [exact H1|]. split; [|split; [|split; [|split; [exact H5|exact Fc]]]].
      * intros f r2. rewrite H2. split; intros [x [Hx Ex]]; exists x; (split; [|exact Ex]); [apply Hlast; auto|]. apply Hlast in Hx. destruct Hx as [Hx|[-> ->]]; [exact Hx|]. congruence.
      * intros f. rewrite in_app_iff, H3. cbn [In]. split.
        -- intros [[x [Hx Ex]]|[<-|[]]]; [exists x; split; [apply Hlast; auto|exact Ex]|exists dir; split; [apply Hlast; auto|auto]].
        -- intros [x [Hx Ex]]. apply Hlast in Hx. destruct Hx as [Hx|[-> ->]]; [left; eauto|right; left; reflexivity].
      * rewrite app_length, H4. cbn [length]. lia.
Qed.
Lemma visits_cache now fs : forall s, NoDup (akeys (z_cache s)) -> (length (z_cache s) <= g_cache_mb g * 1000)%nat ->
  NoDup (akeys (z_cache (fold_left (visit load d g now) fs s))) /\ (length (z_cache (fold_left (visit load d g now) fs s)) <= g_cache_mb g * 1000)%nat.
Proof.
  induction fs as [|[dir file] fs IH]; intros s H1 H2; [auto|]. cbn [fold_left]. apply IH; unfold visit; destruct (scan_file_cache (now file) dir file (z_cache s) H1 H2) as [A B]; destruct (scan_file load d g (now file) dir file (z_cache s)) as [[r|] c]; assumption.
Qed.
Lemma true_faithful W c : agrees W d -> true_to load W c -> faithful load d c.
Proof. intros Ha Ht file e Hin Hs. destruct (Ht file e Hin) as [[t [H1 H2]] [H3 [H4 H5]]]. split; [|auto]. exists (o_package (n_result e)). split; [|reflexivity]. exists (n_time e), t. split; [exact Hs|]. split; [rewrite (Ha file _ _ Hs); exact H1|exact H2]. Qed.
Lemma scan_file_true W now dir n c : agrees W d -> ~ In "/"%char n -> true_to load W c -> true_to load W (snd (scan_file load d g now dir (child dir n) c)).
Proof.
  intros Ha Hn Ht. unfold scan_file. destruct (d_stat d (child dir n)) as [[time size]|] eqn:Es; [|exact Ht]. destruct (if g_cache g then _ else _); [exact Ht|]. destruct (d_text d (child dir n)) as [t|] eqn:Et; [|exact Ht]. destruct (load t) as [p|] eqn:El; [|exact Ht]. cbn [snd]. destruct (g_cache g); [|exact Ht].
  intros f e Hin. apply evict_sub, aput_sub in Hin. destruct Hin as [[-> ->]|Hin]; [|exact (Ht f e Hin)]. cbn [n_result n_time n_size o_package o_file o_dir o_size]. split; [exists t; split; [rewrite <- (Ha _ _ _ Es); exact Et|exact El]|]. split; [reflexivity|]. split; [exists n; auto|reflexivity].
Qed.
Lemma visits_true W now fs : agrees W d -> (forall dir file, In (dir, file) fs -> exists n, file = child dir n /\ ~ In "/"%char n) -> forall s, true_to load W (z_cache s) -> true_to load W (z_cache (fold_left (visit load d g now) fs s)).
Proof.
  intros Ha. induction fs as [|[dir file] fs IH]; intros Hd s Hs; [exact Hs|]. cbn [fold_left]. apply IH; [intros a b X; apply Hd; right; exact X|]. destruct (Hd dir file (or_introl eq_refl)) as [n [-> Hn]].
  pose proof (scan_file_true W (now (child dir n)) dir n (z_cache s) Ha Hn Hs) as K. unfold visit. destruct (scan_file load d g (now (child dir n)) dir (child dir n) (z_cache s)) as [[r|] c']; exact K.
Qed.
(** ** The fast scanner *)
Lemma discover_spec fuel : forall stack ds, discover d fuel stack = Some ds -> forall q, In q ds <-> exists s k, In s stack /\ below d (fun _ => True) s (S k) q.
Proof.
  induction fuel as [|fuel IH]; intros stack ds H q; [discriminate|]. cbn [discover] in H. destruct stack as [|p r].
  - injection H as <-. split; [intros []|intros [s [k [[] _]]]].
  - destruct (d_list d p) as [es|] eqn:El.
    + set (subs := sort_by path_cmp _) in H. destruct (discover d fuel (rev subs ++ r)) as [l|] eqn:E; [|discriminate]. cbn [option_map] in H. injection H as <-. rewrite in_app_iff, (IH _ _ E q).
      assert (Hs : forall x, In x subs <-> exists e, In e es /\ x = child p e /\ d_kind d x = KDir).
      { intros x. unfold subs. rewrite sort_in, filter_In, is_dir_iff, in_map_iff. split; [intros [[e [<- X]] Y]; eauto|intros [e [X [-> Y]]]; eauto]. }
      split.
      * intros [X|[s [k [X Y]]]].
        -- apply Hs in X. destruct X as [e [X1 [-> X2]]]. exists p, 0%nat. split; [left; reflexivity|]. eapply below_cons; try eassumption; [exact I|]. constructor. exact I.
        -- apply in_app_iff in X. destruct X as [X|X]; [|exists s, k; split; [right; exact X|exact Y]]. apply in_rev, Hs in X. destruct X as [e [X1 [-> X2]]]. exists p, (S k). split; [left; reflexivity|]. eapply below_cons; try eassumption. exact I.
      * intros [s [k [[<-|X] Y]]]; [|right; exists s, k; split; [apply in_app_iff; right; exact X|exact Y]]. apply below_inv in Y. destruct Y as [es2 [e [Y1 [Y2 [Y3 Y4]]]]]. rewrite El in Y1. injection Y1 as <-.
        destruct k as [|k]; [apply below_zero in Y4; destruct Y4 as [<- _]; left; apply Hs; eauto|]. right. exists (child p e), k. split; [|exact Y4]. apply in_app_iff. left. apply -> in_rev. apply Hs. eauto.
    + rewrite (IH _ _ H q). split; intros [s [k [X Y]]]; exists s, k; (split; [|exact Y]); [right; exact X|]. destruct X as [<-|X]; [|exact X]. apply below_inv in Y. destruct Y as [es2 [e [Y1 _]]]. congruence.
Qed.
Lemma fast_files_spec dirs dir file : In (dir, file) (fast_files d dirs) <-> In dir dirs /\ package_in d (eq (T "package.py")) dir file.
Proof.
  unfold fast_files, package_in. rewrite in_flat_map. split.
  - intros [x [H1 H2]]. destruct (d_list d x) as [es|] eqn:El; [|destruct H2]. apply in_map_iff in H2. destruct H2 as [e [E H2]]. injection E as <- <-. apply filter_In in H2. destruct H2 as [H2 H3]. apply andb_true_iff in H3. destruct H3 as [H3 H4]. apply is_file_iff in H3. apply text_eqb_eq in H4. split; [exact H1|]. exists es, e. subst e. auto.
  - intros [H1 [es [e [H2 [H3 [H4 [-> H5]]]]]]]. exists dir. split; [exact H1|]. rewrite H2. apply in_map_iff. exists e. split; [reflexivity|]. apply filter_In. split; [exact H3|]. apply andb_true_iff. split; [apply is_file_iff; exact H5|apply text_eqb_eq; auto].
Qed.
Lemma path_cmp_TPO : TPO (fun _ => True) path_cmp.
Proof. constructor; unfold path_cmp; intros; first [apply (tpo_refl _ _ TPO_text); exact I | apply (tpo_anti _ _ TPO_text); exact I | eapply (tpo_trans _ _ TPO_text); [exact I|exact I|exact I|eassumption|eassumption]]. Qed.
Lemma fold_puts (fs : list (text * text)) : forall m, NoDup (akeys m) -> (forall dir file x, In (dir, file) fs -> In (file, x) m \/ In (x, file) fs -> x = dir) ->
  NoDup (akeys (fold_left (fun m f => aput (snd f) (fst f) m) fs m)) /\ forall file dir, In (file, dir) (fold_left (fun m f => aput (snd f) (fst f) m) fs m) <-> In (file, dir) m \/ In (dir, file) fs.
Proof.
  induction fs as [|[a b] fs IH]; intros m Hm Hs; cbn [fold_left fst snd In]; [split; [exact Hm|tauto]|].
  destruct (IH (aput b a m)) as [H1 H2]; [apply nodup_put, Hm| |].
  - intros dir file x X Y. apply (Hs dir file x); [right; exact X|]. destruct Y as [Y|Y]; [|right; right; exact Y]. apply aput_sub in Y. destruct Y as [[-> ->]|Y]; [right; left; reflexivity|left; exact Y].
  - split; [exact H1|]. intros file dir. rewrite H2, (aput_in _ _ _ _ _ Hm). split.
    + intros [[[-> ->]|[_ X]]|X]; auto.
    + intros [X|[X|X]]; auto.
      * destruct (text_eqb_spec file b) as [->|Hne]; [|auto]. left. left. split; [reflexivity|]. apply (Hs a b dir); [left; reflexivity|left; exact X].
      * injection X as <- <-. auto.
Qed.
Lemma fast_order_spec fs : (forall dir file x, In (dir, file) fs -> In (x, file) fs -> x = dir) ->
  (forall x, In x (fast_order fs) <-> In x fs) /\ NoDup (map snd (fast_order fs)) /\ sorted_by (fun a b => path_cmp (snd a) (snd b)) (fast_order fs).
Proof.
  intros H. destruct (fold_puts fs []) as [H1 H2]; [constructor|intros dir file x X [[]|Y]; exact (H dir file x X Y)|]. unfold fast_order. set (m := fold_left _ fs []) in *. split; [|split].
  - intros [dir file]. rewrite sort_in, in_map_iff. split.
    + intros [[f x] [E X]]. cbn in E. injection E as <- <-. apply H2 in X. destruct X as [[]|X]; exact X.
    + intros X. exists (file, dir). split; [reflexivity|]. apply H2. right. exact X.
  - eapply Permutation_NoDup; [apply Permutation_map; symmetry; apply sort_perm|]. rewrite map_map. exact H1.
  - apply (sort_sorted _ (fun _ => True)); [|apply Forall_forall; auto]. pose proof path_cmp_TPO as X. constructor; intros.
    + apply (tpo_refl _ _ X). exact I.
    + apply (tpo_anti _ _ X); exact I.
    + eapply (tpo_trans _ _ X); [exact I|exact I|exact I|eassumption|eassumption].
Qed.
Lemma fast_each_fresh cap fs : forall c, (forall dir file r, In (dir, file) fs -> In (file, r) c -> fresh dir file = Some r) -> NoDup (map snd fs) ->
  fst (fast_each load d cap fs c) = flat_map (fun f => match fresh (fst f) (snd f) with Some r => [r] | None => [] end) fs.
Proof.
  induction fs as [|[dir file] fs IH]; intros c Hc Hn; [reflexivity|]. cbn [fast_each flat_map fst snd]. cbn [map snd] in Hn. inversion Hn as [|? ? Hn1 Hn2]; subst.
  assert (Hother : forall x f, In (x, f) fs -> f <> file). { intros x f X ->. apply Hn1, in_map_iff. exists (x, file). auto. }
  assert (K : fst (fast_file load d cap (dir, file) c) = fresh dir file /\ forall f r, In (f, r) (snd (fast_file load d cap (dir, file) c)) -> f <> file -> In (f, r) c).
  { unfold fast_file, fresh. destruct (aget file c) as [r|] eqn:Ea.
    - apply aget_in in Ea. pose proof (Hc dir file r (or_introl eq_refl) Ea) as E. unfold fresh in E. cbn [fst snd]. split; [symmetry; exact E|]. intros f r2 [X|X] Hne; [injection X as <- _; congruence|]. unfold adel in X. apply filter_In in X. tauto.
    - destruct (d_stat d file) as [[time size]|]; [|auto]. destruct (d_text d file) as [t|]; [|auto]. destruct (load t) as [p|]; [|auto]. cbn [fst snd]. split; [reflexivity|]. intros f r2 X Hne. apply firstn_incl in X. destruct X as [X|X]; [injection X as <- _; congruence|exact X]. }
  destruct K as [K1 K2]. destruct (fast_file load d cap (dir, file) c) as [o c1]. cbn [fst snd] in *. subst o. specialize (IH c1).
  destruct (fast_each load d cap fs c1) as [rs c2]. cbn [fst] in *. rewrite IH; [destruct (fresh dir file); reflexivity| |exact Hn2]. intros x f r X Y. apply (Hc x f r); [right; exact X|]. apply K2; [exact Y|exact (Hother x f X)].
Qed.
Lemma adel_shorter {A} k (m : list (text * A)) : In k (akeys m) -> (length (adel k m) < length m)%nat.
Proof.
  induction m as [|[x y] m IH]; [intros []|]. unfold adel. cbn [akeys map fst In filter]. intros [<-|H].
  - rewrite text_eqb_refl. cbn [negb length]. clear IH. induction m as [|[z w] m IH]; [cbn; lia|]. cbn [filter fst]. destruct (negb (text_eqb x z)); cbn [length] in *; lia.
  - specialize (IH H). unfold adel in IH. destruct (negb (text_eqb k x)); cbn [length]; lia.
Qed.
Lemma fast_each_bound cap fs : forall c, (length c <= fast_cap cap)%nat -> (length (snd (fast_each load d cap fs c)) <= fast_cap cap)%nat.
Proof.
  induction fs as [|[dir file] fs IH]; intros c H; [exact H|]. cbn [fast_each].
  assert (K : (length (snd (fast_file load d cap (dir, file) c)) <= fast_cap cap)%nat).
  { unfold fast_file. destruct (aget file c) as [r|] eqn:Ea.
    - cbn [snd length]. assert (X : In file (akeys c)) by (apply aget_some; eauto). apply adel_shorter in X. lia.
    - destruct (d_stat d file) as [[time size]|]; [|exact H]. destruct (d_text d file); [|exact H]. destruct (load t); [|exact H]. cbn [snd]. rewrite firstn_length. lia. }
  destruct (fast_file load d cap (dir, file) c) as [o c1]. cbn [snd] in K. specialize (IH c1 K). destruct (fast_each load d cap fs c1) as [rs c2]. exact IH.
Qed.
End Scan.
