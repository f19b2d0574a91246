(** Proofs about package orderers. *)
From Verif Require Import Base Base_lemmas Text_lemmas Version_model Version_spec Version_proofs Version_order
  Maps Sorting Json Package_model Order_model Order_spec.

Lemma ord_nested_ind (Q : orderer -> Prop) :
  (forall f, Q (ONull f)) -> (forall d f, Q (OSorted d f)) -> (forall v f, Q (OSplit v f)) -> (forall t r f, Q (OTime t r f)) ->
  (forall dict def, Forall (fun kv => Q (snd kv)) dict -> match def with Some x => Q x | None => True end -> Q (OFamily dict def)) ->
  forall o, Q o.
Proof.
  intros H1 H2 H3 H4 H5. fix IH 1. intros [f|d f|v f|dict def|t r f]; [apply H1|apply H2|apply H3| |apply H4].
  apply H5.
  - induction dict as [|[k x] dict IHd]; constructor; [apply IH|exact IHd].
  - destruct def; [apply IH|exact I].
Qed.

Lemma existsb_false_forall {A} (f : A -> bool) l : existsb f l = false <-> forall x, In x l -> f x = false.
Proof.
  induction l as [|y l IH]; cbn [existsb].
  - split; [intros _ x []|reflexivity].
  - rewrite orb_false_iff, IH. split.
    + intros [H1 H2] x [<-|Hx]; auto.
    + intros H. split; [apply H; left; reflexivity|intros x Hx; apply H; right; exact Hx].
Qed.

(** ** comparators *)
Lemma by_version_TPO vc (S : version -> Prop) :
  (forall a, S a -> vc a a = Eq) -> (forall a b, S a -> S b -> vc b a = CompOpp (vc a b)) ->
  (forall a b c, S a -> S b -> S c -> vc a b <> Gt -> vc b c <> Gt -> vc a c <> Gt) ->
  TPO (fun p => forall v, p_version p = Some v -> S v) (by_version vc).
Proof.
  intros Hr Ha Ht. unfold by_version. constructor.
  - intros x Hx. destruct (p_version x); auto.
  - intros x y Hx Hy. destruct (p_version x), (p_version y); auto.
  - intros x y z Hx Hy Hz. destruct (p_version x), (p_version y), (p_version z); try discriminate; try congruence; eauto.
Qed.
Lemma ascending_TPO S : transitive_versions S -> TPO (fun p => forall v, p_version p = Some v -> S v) ascending.
Proof.
  intros Ht. unfold ascending. apply by_version_TPO.
  - intros. apply vcmp_refl.
  - intros. apply vcmp_anti.
  - exact Ht.
Qed.
Lemma descending_TPO S : transitive_versions S -> TPO (fun p => forall v, p_version p = Some v -> S v) descending.
Proof.
  intros Ht. unfold descending. apply by_version_TPO.
  - intros. apply vcmp_refl.
  - intros. apply vcmp_anti.
  - intros a b c Ha Hb Hc H1 H2. apply (Ht c b a); assumption.
Qed.
Lemma by_time_TPO ts : TPO (fun _ => True) (by_time ts).
Proof.
  unfold by_time. constructor.
  - intros x _. destruct (time_of x <=? ts)%Z; apply Z.compare_refl.
  - intros x y _ _. destruct (time_of x <=? ts)%Z, (time_of y <=? ts)%Z; try reflexivity; apply Z.compare_antisym.
  - intros x y z _ _ _.
    destruct (time_of x <=? ts)%Z, (time_of y <=? ts)%Z, (time_of z <=? ts)%Z; try congruence;
      rewrite ?Z.compare_gt_iff; lia.
Qed.

(** ** grouping *)
Definition group_step (m : list (text * list package)) (p : package) :=
  aput (p_name p) (match aget (p_name p) m with Some l => l | None => [] end ++ [p]) m.
Lemma grouped_snoc ps p : grouped (ps ++ [p]) = group_step (grouped ps) p.
Proof. unfold grouped. rewrite fold_left_app. reflexivity. Qed.
Lemma family_snoc f ps p : family f (ps ++ [p]) = if text_eqb f (p_name p) then family f ps ++ [p] else family f ps.
Proof.
  unfold family. rewrite filter_app. cbn [filter]. destruct (text_eqb f (p_name p)); [reflexivity|apply app_nil_r].
Qed.
Lemma grouped_nodup ps : NoDup (akeys (grouped ps)).
Proof.
  induction ps as [|p ps IH] using rev_ind; [constructor|]. rewrite grouped_snoc. apply nodup_put, IH.
Qed.
Lemma grouped_get ps f : aget f (grouped ps) = if is_nil (family f ps) then None else Some (family f ps).
Proof.
  induction ps as [|p ps IH] using rev_ind; [reflexivity|]. rewrite grouped_snoc, family_snoc. unfold group_step.
  destruct (text_eqb_spec f (p_name p)) as [->|Hn].
  - rewrite aget_put_same, IH. destruct (family (p_name p) ps); reflexivity.
  - rewrite aget_put_other by exact Hn. exact IH.
Qed.
Lemma grouped_in ps f l : In (f, l) (grouped ps) <-> l = family f ps /\ l <> [].
Proof.
  split.
  - intros H. apply (aget_nodup _ _ _ (grouped_nodup ps)) in H. rewrite grouped_get in H.
    destruct (is_nil (family f ps)) eqn:E; [discriminate|]. injection H as <-. apply is_nil_false in E. auto.
  - intros [-> Hn]. apply aget_in. rewrite grouped_get. apply is_nil_false in Hn. rewrite Hn. reflexivity.
Qed.

Lemma perm_filter {A} (f : A -> bool) l l' : Permutation l l' -> Permutation (filter f l) (filter f l').
Proof.
  induction 1 as [|x l l' H IH|x y l|l1 l2 l3 H1 IH1 H2 IH2]; cbn [filter].
  - constructor.
  - destruct (f x); [constructor; exact IH|exact IH].
  - destruct (f x), (f y); try reflexivity. apply perm_swap.
  - etransitivity; eassumption.
Qed.
(** a list whose groups by name are those of [ps] is a permutation of [ps] *)
Lemma perm_by_groups (gs : list (text * list package)) : forall ps,
  NoDup (akeys gs) -> (forall f l, In (f, l) gs <-> l = family f ps /\ l <> []) ->
  Permutation (concat (map snd gs)) ps.
Proof.
  induction gs as [|[f l] gs IH]; intros ps Hn H.
  - destruct ps as [|p ps]; [constructor|]. exfalso.
    assert (In (p_name p, family (p_name p) (p :: ps)) []) as [].
    apply H. split; [reflexivity|]. unfold family. cbn [filter]. rewrite text_eqb_refl. discriminate.
  - cbn [map snd concat]. inversion Hn as [|? ? Hf Hn']; subst.
    assert (l = family f ps /\ l <> []) as [El Hl] by (apply H; left; reflexivity).
    set (rest := filter (fun p => negb (text_eqb f (p_name p))) ps).
    assert (Permutation ps (family f ps ++ rest)) as Hp.
    { unfold family, rest. clear. induction ps as [|p ps IH]; [constructor|]. cbn [filter].
      destruct (text_eqb f (p_name p)); cbn [negb].
      - cbn [app]. constructor. exact IH.
      - rewrite <- Permutation_middle. constructor. exact IH. }
    rewrite Hp, <- El. apply Permutation_app_head. apply IH; [exact Hn'|].
    assert (forall g, g <> f -> family g rest = family g ps) as Hfam.
    { intros g Hg. unfold family, rest. clear - Hg. induction ps as [|p ps IH]; [reflexivity|]. cbn [filter].
      destruct (text_eqb_spec f (p_name p)) as [->|E]; cbn [negb filter].
      - rewrite IH. destruct (text_eqb_spec g (p_name p)); [congruence|reflexivity].
      - rewrite IH. reflexivity. }
    assert (family f rest = []) as Hfr.
    { unfold family, rest. clear. induction ps as [|p ps IH]; [reflexivity|]. cbn [filter].
      destruct (text_eqb f (p_name p)) eqn:E; cbn [negb filter]; [exact IH|]. rewrite E. exact IH. }
    intros g l'. split.
    + intros Hin. assert (g <> f) as Hg.
      { intros ->. apply Hf. change f with (fst (f, l')). apply in_map, Hin. }
      rewrite Hfam by exact Hg. apply H. right. exact Hin.
    + intros [-> Hne]. destruct (text_eqb_spec g f) as [->|Hg]; [congruence|].
      rewrite Hfam in * by exact Hg.
      assert (In (g, family g ps) ((f, l) :: gs)) as [[= E _]|Hin] by (apply H; auto); [congruence|exact Hin].
Qed.

(** ** the pieces of [reorder] *)
Definition run (ord : list (text * list package) -> list (text * list package)) (x : orderer) (pkgs : list package) : result (list package) :=
  match reorder ord x pkgs with Ret (Some l) => Ret l | Ret None => Ret pkgs | Panic => Panic end.
Definition run_family ord dict def f pkgs : result (list package) :=
  match responsible dict def f with Some x => run ord x pkgs | None => Ret pkgs end.
Lemma reorder_family ord dict def ps : reorder ord (OFamily dict def) ps =
  match bind_results (map (fun g => run_family ord dict def (fst g) (snd g)) (ord (grouped ps))) with
  | Ret l => Ret (Some l) | Panic => Panic end.
Proof.
  cbn [reorder].
  match goal with |- match bind_results (map ?g _) with _ => _ end = _ => assert (forall x, g x = run_family ord dict def (fst x) (snd x)) as E end.
  { intros [f l]. cbn [fst snd]. unfold run_family, responsible. induction dict as [|[k x] dict IH]; cbn [aget].
    - destruct def; reflexivity.
    - destruct (text_eqb f k); [reflexivity|exact IH]. }
  rewrite (map_ext _ _ E). reflexivity.
Qed.
Lemma run_applied ord x pkgs l : run ord x pkgs = Ret l <-> applied (reorder ord x pkgs) pkgs l.
Proof.
  unfold run, applied. destruct (reorder ord x pkgs) as [[y|]|]; split.
  - intros [= ->]. auto.
  - intros [H|[H _]]; [injection H as ->; reflexivity|discriminate].
  - intros [= ->]. auto.
  - intros [H|[_ ->]]; [discriminate|reflexivity].
  - discriminate.
  - intros [H|[H _]]; discriminate.
Qed.
Lemma bind_ret gs (F : text * list package -> result (list package)) out :
  bind_results (map F gs) = Ret out <-> exists ls, Forall2 (fun g l => F g = Ret l) gs ls /\ out = concat ls.
Proof.
  revert out; induction gs as [|g gs IH]; intros out; cbn [map bind_results fold_right].
  - split.
    + intros [= <-]. exists []. split; [constructor|reflexivity].
    + intros (ls & H & ->). inversion H. reflexivity.
  - fold (bind_results (map F gs)). split.
    + destruct (F g) as [x|] eqn:E; [|discriminate]. destruct (bind_results (map F gs)) as [y|] eqn:E2; [|discriminate].
      intros [= <-]. destruct (proj1 (IH y) eq_refl) as (ls & Hl & ->). exists (x :: ls). split; [constructor; assumption|reflexivity].
    + intros (ls & H & ->). inversion H as [|? l ? ls' Hx Hl]; subst. rewrite Hx.
      destruct (IH (concat ls')) as [_ IH2]. rewrite IH2 by eauto. reflexivity.
Qed.
Lemma bind_panic gs (F : text * list package -> result (list package)) :
  bind_results (map F gs) = Panic <-> exists g, In g gs /\ F g = Panic.
Proof.
  induction gs as [|g gs IH]; cbn [map bind_results fold_right].
  - split; [discriminate|]. intros (g & [] & _).
  - fold (bind_results (map F gs)). destruct (F g) as [x|] eqn:E.
    + destruct (bind_results (map F gs)) as [y|] eqn:E2.
      * split; [discriminate|]. intros (h & [<-|Hin] & Hp); [congruence|].
        assert (Ret y = Panic) by (apply IH; eauto). discriminate.
      * split; [|reflexivity]. intros _. destruct (proj1 IH eq_refl) as (h & Hin & Hp). exists h. split; [right; exact Hin|exact Hp].
    + split; [|reflexivity]. intros _. exists g. split; [left; reflexivity|exact E].
Qed.

Lemma sort_unwrap_perm l out : sort_unwrap l = Ret out -> out = sort_by ascending l.
Proof. unfold sort_unwrap. destruct (_ && _); [discriminate|]. intros [= <-]. reflexivity. Qed.

Lemma reorder_perm ord o : any_order ord -> forall ps l, reorder ord o ps = Ret (Some l) -> Permutation l ps.
Proof.
  intros Hord. induction o as [f|d f|v f|t r f|dict def IHd IHdef] using ord_nested_ind; intros ps l H.
  - discriminate.
  - cbn [reorder] in H. injection H as <-. apply sort_perm.
  - cbn [reorder] in H. destruct (sort_unwrap _) as [b|] eqn:E1; [|discriminate].
    destruct (sort_unwrap (filter (fun p => negb (before_split v p)) ps)) as [a|] eqn:E2; [|discriminate]. injection H as <-.
    apply sort_unwrap_perm in E1, E2. subst. rewrite !sort_perm.
    clear. induction ps as [|p ps IH]; [constructor|]. cbn [filter]. destruct (before_split v p); cbn [negb].
    + cbn [app]. constructor. exact IH.
    + rewrite <- Permutation_middle. constructor. exact IH.
  - cbn [reorder] in H. injection H as <-. apply sort_perm.
  - rewrite reorder_family in H. destruct (bind_results _) as [out|] eqn:E; [|discriminate]. injection H as <-.
    apply bind_ret in E as (ls & Hls & ->).
    rewrite <- (perm_by_groups (ord (grouped ps)) ps).
    + assert (forall x pkgs l, (exists k, In (k, x) dict) \/ def = Some x -> run ord x pkgs = Ret l -> Permutation l pkgs) as K.
      { intros x pkgs l Hx Hr. apply run_applied in Hr as [Hr|[_ ->]]; [|reflexivity]. destruct Hx as [[k Hk]| ->].
        - rewrite Forall_forall in IHd. apply (IHd (k, x) Hk pkgs l Hr).
        - apply (IHdef pkgs l Hr). }
      induction Hls as [|[g pkgs] l' gs ls H Hls IH]; [constructor|]. cbn [map snd concat]. apply Permutation_app; [|exact IH].
      unfold run_family, responsible in H. cbn [fst snd] in H. destruct (aget g dict) as [x|] eqn:Ex.
      * apply (K x); [left; exists g; apply aget_in, Ex|exact H].
      * destruct def as [x|]; [apply (K x); auto|]. injection H as <-. reflexivity.
    + eapply Permutation_NoDup; [|apply (grouped_nodup ps)]. apply Permutation_map. symmetry. apply Hord.
    + intros f l. rewrite <- grouped_in. split; apply Permutation_in; [|symmetry]; apply Hord.
Qed.

(** ** families *)
Lemma family_perm f l ps : Permutation l ps -> Permutation (family f l) (family f ps).
Proof. apply perm_filter. Qed.
Lemma family_all f l : (forall p, In p l -> p_name p = f) -> family f l = l.
Proof.
  unfold family. induction l as [|p l IH]; intros H; [reflexivity|]. cbn [filter].
  rewrite (H p (or_introl eq_refl)), text_eqb_refl. f_equal. apply IH. intros q Hq. apply H. right. exact Hq.
Qed.
Lemma family_none f g l : g <> f -> (forall p, In p l -> p_name p = g) -> family f l = [].
Proof.
  unfold family. induction l as [|p l IH]; intros Hn H; [reflexivity|]. cbn [filter].
  rewrite (H p (or_introl eq_refl)). destruct (text_eqb_spec f g); [congruence|]. apply IH; [exact Hn|].
  intros q Hq. apply H. right. exact Hq.
Qed.
Lemma in_family f ps p : In p (family f ps) -> p_name p = f.
Proof. unfold family. intros H. apply filter_In in H as [_ H]. destruct (text_eqb_spec f (p_name p)); congruence. Qed.

Lemma run_perm ord x pkgs l : any_order ord -> run ord x pkgs = Ret l -> Permutation l pkgs.
Proof. intros Ho H. apply run_applied in H as [H|[_ ->]]; [eapply reorder_perm; eauto|reflexivity]. Qed.
Lemma run_family_perm ord dict def f pkgs l : any_order ord -> run_family ord dict def f pkgs = Ret l -> Permutation l pkgs.
Proof.
  unfold run_family. intros Ho. destruct (responsible dict def f); [apply run_perm, Ho|]. intros [= <-]. reflexivity.
Qed.

Lemma family_result ord dict def ps out f : any_order ord -> reorder ord (OFamily dict def) ps = Ret (Some out) ->
  family f ps <> [] -> run_family ord dict def f (family f ps) = Ret (family f out).
Proof.
  intros Hord H Hne. rewrite reorder_family in H. destruct (bind_results _) as [o|] eqn:E; [|discriminate]. injection H as <-.
  apply bind_ret in E as (ls & Hls & ->).
  assert (forall g l, In (g, l) (ord (grouped ps)) <-> l = family g ps /\ l <> []) as Hgs.
  { intros g l. rewrite <- grouped_in. split; apply Permutation_in; [|symmetry]; apply Hord. }
  assert (NoDup (akeys (ord (grouped ps)))) as Hnd.
  { eapply Permutation_NoDup; [|apply (grouped_nodup ps)]. apply Permutation_map. symmetry. apply Hord. }
  assert (In (f, family f ps) (ord (grouped ps))) as Hin by (apply Hgs; auto).
  assert (forall g l, In (g, l) (ord (grouped ps)) -> forall p, In p l -> p_name p = g) as Hnames.
  { intros g l Hg p Hp. apply Hgs in Hg as [-> _]. eapply in_family, Hp. }
  revert Hls Hnd Hin Hnames. generalize (ord (grouped ps)). clear Hgs. intros gs Hls.
  induction Hls as [|[g pkgs] l' gs ls H Hls IH]; intros Hnd Hin Hnames; [destruct Hin|].
  cbn [fst snd] in H. cbn [concat]. unfold family at 2. rewrite filter_app. fold (family f l') (family f (concat ls)).
  inversion Hnd as [|? ? Hg Hnd']; subst.
  assert (forall p, In p l' -> p_name p = g) as Hl'.
  { intros p Hp. apply (Hnames g pkgs (or_introl eq_refl)). eapply Permutation_in; [|exact Hp]. eapply run_family_perm; eauto. }
  destruct Hin as [[= -> ->]|Hin].
  - rewrite (family_all f l' Hl').
    assert (family f (concat ls) = []) as ->; [|rewrite app_nil_r; exact H].
    assert (forall g' l2, In (g', l2) gs -> g' <> f) as Hother.
    { intros g' l2 Hin ->. apply Hg. apply in_map with (f := fst) in Hin. exact Hin. }
    clear - Hls Hnames Hother Hord. induction Hls as [|[g pkgs] l2 gs ls H Hls IH]; [reflexivity|].
    cbn [concat]. unfold family. rewrite filter_app. fold (family f l2) (family f (concat ls)).
    rewrite IH; [|intros g' l3 [E|Hin]; [apply (Hnames g' l3); left; exact E|apply (Hnames g' l3); right; right; exact Hin]
               |intros g' l3 Hin; apply (Hother g' l3); right; exact Hin].
    rewrite app_nil_r. apply (family_none f g); [apply (Hother g pkgs); left; reflexivity|].
    intros p Hp. apply (Hnames g pkgs); [right; left; reflexivity|]. cbn [fst snd] in H. eapply Permutation_in; [|exact Hp].
    eapply run_family_perm; eauto.
  - rewrite (family_none f g l'); [|intros ->; apply Hg; apply in_map with (f := fst) in Hin; exact Hin|exact Hl'].
    cbn [app]. apply IH; [exact Hnd'|exact Hin|]. intros g' l2 Hin2. apply (Hnames g' l2). right. exact Hin2.
Qed.

(** ** sortedness *)
Lemma forall_versions S ps : versions_in S ps -> Forall (fun p => forall v, p_version p = Some v -> S v) ps.
Proof. intros H. apply Forall_forall. intros p Hp v E. eapply H; eauto. Qed.

Lemma goes_before_iff (d : bool) p q : goes_before d p q <-> (if d then descending else ascending) p q <> Gt.
Proof.
  unfold goes_before. destruct d; unfold descending, ascending, by_version; destruct (p_version p), (p_version q); split; try congruence; tauto.
Qed.
Lemma same_version_eq (d : bool) p q : same_version p q = is_eq ((if d then descending else ascending) p q).
Proof.
  unfold same_version. destruct d; unfold descending, ascending, by_version; destruct (p_version p) as [x|], (p_version q) as [y|]; try reflexivity.
  rewrite (vcmp_anti x y). destruct (vcmp x y); reflexivity.
Qed.
Lemma pairwise_sorted (d : bool) l : sorted_by (if d then descending else ascending) l -> pairwise (goes_before d) l.
Proof. intros H l1 x l2 y l3 E. apply goes_before_iff. eapply H, E. Qed.

Lemma sorted_spec ord d f S ps out : transitive_versions S -> versions_in S ps ->
  reorder ord (OSorted d f) ps = Ret (Some out) ->
  pairwise (goes_before d) out /\ (forall p, In p ps -> filter (same_version p) out = filter (same_version p) ps).
Proof.
  intros Ht Hv H. cbn [reorder] in H. injection H as <-. pose proof (forall_versions S ps Hv) as Hf.
  assert (forall p, In p ps -> forall v, p_version p = Some v -> S v) as Hp.
  { intros p Hin v E. eapply Hv; eauto. }
  assert (TPO (fun p => forall v, p_version p = Some v -> S v) (if d then descending else ascending)) as HT
    by (destruct d; [apply descending_TPO, Ht|apply ascending_TPO, Ht]).
  split.
  - apply pairwise_sorted, (sort_sorted _ _ HT), Hf.
  - intros p Hin. rewrite (filter_ext _ _ (same_version_eq d p)), (filter_ext _ _ (same_version_eq d p) ps).
    apply (sort_stable _ _ HT); [exact (Hp p Hin)|exact Hf].
Qed.

Lemma before_split_iff v p : before_split v p = true <-> at_most v p.
Proof.
  unfold before_split, at_most. destruct (p_version p) as [x|].
  - split.
    + intros H. exists x. split; [reflexivity|]. destruct (vcmp x v); discriminate.
    + intros (y & [= <-] & H). destruct (vcmp x v); [reflexivity|reflexivity|congruence].
  - split; [discriminate|]. intros (y & H & _). discriminate.
Qed.
Lemma split_spec ord v f ps out : reorder ord (OSplit v f) ps = Ret (Some out) ->
  exists early late, out = early ++ late /\ Forall (at_most v) early /\ Forall (fun p => ~ at_most v p) late /\
  forall S, transitive_versions S -> versions_in S ps ->
    pairwise (goes_before false) early /\ pairwise (goes_before false) late /\
    forall p, In p ps -> filter (same_version p) early ++ filter (same_version p) late = 
      filter (same_version p) (filter (fun q => is_le (match p_version q with Some x => vcmp x v | None => Gt end)) ps) ++
      filter (same_version p) (filter (fun q => is_gt (match p_version q with Some x => vcmp x v | None => Gt end)) ps).
Proof.
  cbn [reorder]. destruct (sort_unwrap _) as [b|] eqn:E1; [|discriminate].
  destruct (sort_unwrap (filter (fun p => negb (before_split v p)) ps)) as [a|] eqn:E2; [|discriminate]. intros [= <-].
  apply sort_unwrap_perm in E1, E2. exists b, a. split; [reflexivity|]. split.
  { apply Forall_forall. intros p Hp. rewrite E1 in Hp. apply (proj1 (sort_in _ _ _)) in Hp. apply filter_In in Hp as [_ Hp].
    apply before_split_iff, Hp. }
  split.
  { apply Forall_forall. intros p Hp. rewrite E2 in Hp. apply (proj1 (sort_in _ _ _)) in Hp. apply filter_In in Hp as [_ Hp].
    rewrite <- before_split_iff. destruct (before_split v p); [discriminate Hp|discriminate]. }
  intros S Ht Hv. pose proof (ascending_TPO S Ht) as HT.
  assert (forall g, Forall (fun p => forall v, p_version p = Some v -> S v) (filter g ps)) as Hf.
  { intros g. apply forall_versions. intros p x Hp. apply filter_In in Hp as [Hp _]. intros E. eapply Hv; eauto. }
  subst. split; [apply pairwise_sorted, (sort_sorted _ _ HT), Hf|]. split; [apply pairwise_sorted, (sort_sorted _ _ HT), Hf|].
  intros p Hp. rewrite !(filter_ext _ _ (same_version_eq false p)).
  rewrite !(sort_stable _ _ HT); try apply Hf; try (intros x E; eapply Hv; eauto).
  f_equal; f_equal; apply filter_ext; intros q; unfold before_split; destruct (p_version q) as [x|]; try reflexivity;
    destruct (vcmp x v); reflexivity.
Qed.

Lemma time_spec ord ts r f ps out : reorder ord (OTime ts r f) ps = Ret (Some out) ->
  exists early late, out = early ++ late /\
    Forall (fun p => (time_of p <= ts)%Z) early /\ Forall (fun p => (ts < time_of p)%Z) late /\
    pairwise (fun p q => (published q <= published p)%Z) early /\
    pairwise (fun p q => (published q <= published p)%Z) late /\
    forall t, filter (fun q => (time_of q =? t)%Z) out = filter (fun q => (time_of q =? t)%Z) ps.
Proof.
  cbn [reorder]. intros [= <-]. pose proof (by_time_TPO ts) as HT.
  assert (Forall (fun _ : package => True) ps) as Hall by (apply Forall_forall; auto).
  pose proof (sort_chain _ _ HT ps Hall) as Hc.
  assert (forall l, chain (by_time ts) l -> exists early late, l = early ++ late /\
    Forall (fun p => (time_of p <= ts)%Z) early /\ Forall (fun p => (ts < time_of p)%Z) late /\
    chain (fun a b => Z.compare (time_of b) (time_of a)) early /\ chain (fun a b => Z.compare (time_of b) (time_of a)) late) as K.
  { clear. intros l H. induction H as [|x l Hx Hl IH].
    - exists [], []. repeat split; constructor.
    - destruct IH as (e & la & -> & He & Hla & Ce & Cl). rewrite Forall_app in Hx. destruct Hx as [Hx1 Hx2].
      destruct (Z.leb_spec (time_of x) ts) as [Hle|Hgt].
      + exists (x :: e), la. split; [reflexivity|]. split; [constructor; assumption|]. split; [exact Hla|]. split; [|exact Cl].
        constructor; [|exact Ce]. rewrite Forall_forall in *. intros y Hy. specialize (Hx1 y Hy). specialize (He y Hy).
        unfold by_time in Hx1. rewrite (proj2 (Z.leb_le _ _) Hle), (proj2 (Z.leb_le _ _) He) in Hx1. exact Hx1.
      + destruct e as [|y e].
        * exists [], (x :: la). split; [reflexivity|]. split; [constructor|]. split; [constructor; assumption|]. split; [constructor|].
          constructor; [|exact Cl]. rewrite Forall_forall in *. intros y Hy. specialize (Hx2 y Hy). specialize (Hla y Hy).
          unfold by_time in Hx2. rewrite (proj2 (Z.leb_gt _ _) Hgt), (proj2 (Z.leb_gt _ _) Hla) in Hx2. exact Hx2.
        * exfalso. inversion Hx1 as [|? ? Hy _]; subst. inversion He as [|? ? Hy' _]; subst.
          unfold by_time in Hy. rewrite (proj2 (Z.leb_gt _ _) Hgt), (proj2 (Z.leb_le _ _) Hy') in Hy. congruence. }
  destruct (K _ Hc) as (e & la & E & He & Hla & Ce & Cl). exists e, la. split; [exact E|]. split; [exact He|]. split; [exact Hla|].
  assert (forall l, chain (fun a b => Z.compare (time_of b) (time_of a)) l -> pairwise (fun p q => (published q <= published p)%Z) l) as Kp.
  { intros l Hl l1 x l2 y l3 E1. apply chain_sorted in Hl. specialize (Hl _ _ _ _ _ E1). change published with time_of. exact Hl. }
  split; [apply Kp, Ce|]. split; [apply Kp, Cl|]. intros t. change published with time_of.
  destruct (existsb (fun q => (time_of q =? t)%Z) ps) eqn:Ex.
  - apply existsb_exists in Ex as (p & _ & Hp). apply Z.eqb_eq in Hp.
    assert (forall q, (time_of q =? t)%Z = is_eq (by_time ts p q)) as Hq.
    { intros q. unfold by_time. rewrite <- Hp. destruct (Z.leb_spec (time_of p) ts), (Z.leb_spec (time_of q) ts).
      - destruct (Z.compare_spec (time_of q) (time_of p)); cbn [is_eq]; [apply Z.eqb_eq|apply Z.eqb_neq|apply Z.eqb_neq]; lia.
      - cbn [is_eq]. apply Z.eqb_neq. lia.
      - cbn [is_eq]. apply Z.eqb_neq. lia.
      - destruct (Z.compare_spec (time_of q) (time_of p)); cbn [is_eq]; [apply Z.eqb_eq|apply Z.eqb_neq|apply Z.eqb_neq]; lia. }
    rewrite (filter_ext _ _ Hq), (filter_ext _ _ Hq ps). apply (sort_stable _ _ HT); auto.
  - assert (forall l, (forall x, In x l -> In x ps) -> filter (fun q => (time_of q =? t)%Z) l = []) as Hnil.
    { intros l Hl. destruct (filter _ l) as [|x l'] eqn:Ef; [reflexivity|]. exfalso.
      assert (In x (filter (fun q => (time_of q =? t)%Z) l)) as Hx by (rewrite Ef; left; reflexivity).
      apply filter_In in Hx as [Hx1 Hx2]. rewrite existsb_false_forall in Ex. specialize (Ex x (Hl x Hx1)). congruence. }
    rewrite (Hnil ps) by auto. apply Hnil. intros x Hx. apply (proj1 (sort_in _ _ _)) in Hx. exact Hx.
Qed.

(** ** panics *)
Lemma sort_unwrap_ok l : versioned l -> sort_unwrap l <> Panic.
Proof.
  intros H. unfold sort_unwrap. destruct (existsb _ l) eqn:E; [|rewrite andb_false_r; discriminate].
  apply existsb_exists in E as (p & Hp & Ep). destruct (p_version p) eqn:Ev; [discriminate|]. destruct (H p Hp Ev).
Qed.
Lemma versioned_filter f l : versioned l -> versioned (filter f l).
Proof. intros H p Hp. apply filter_In in Hp as [Hp _]. apply H, Hp. Qed.
Lemma reorder_no_panic ord o : any_order ord -> forall ps, versioned ps -> reorder ord o ps <> Panic.
Proof.
  intros Hord. induction o as [f|d f|v f|t r f|dict def IHd IHdef] using ord_nested_ind; intros ps H.
  - discriminate.
  - discriminate.
  - cbn [reorder]. destruct (sort_unwrap _) as [b|] eqn:E1; [|destruct (sort_unwrap_ok _ (versioned_filter _ _ H) E1)].
    destruct (sort_unwrap (filter (fun p => negb (before_split v p)) ps)) as [a|] eqn:E2; [discriminate|].
    destruct (sort_unwrap_ok _ (versioned_filter _ _ H) E2).
  - discriminate.
  - rewrite reorder_family. destruct (bind_results _) as [out|] eqn:E; [discriminate|]. intros _.
    apply bind_panic in E as ([g l] & Hin & Hp). apply (Permutation_in _ (Hord _)) in Hin. apply grouped_in in Hin as [-> _].
    cbn [fst snd] in Hp.
    assert (versioned (family g ps)) as Hv by apply versioned_filter, H.
    assert (forall x, reorder ord x (family g ps) <> Panic -> run ord x (family g ps) <> Panic) as K.
    { intros x Hx. unfold run. destruct (reorder ord x (family g ps)) as [[?|]|]; congruence. }
    revert Hp. unfold run_family, responsible. destruct (aget g dict) as [x|] eqn:Ex.
    + apply K. rewrite Forall_forall in IHd. apply (IHd (g, x) (aget_in _ _ _ Ex)), Hv.
    + destruct def as [x|]; [apply K, IHdef, Hv|discriminate].
Qed.
Lemma split_panic_iff ord v f ps : reorder ord (OSplit v f) ps = Panic <->
  exists p q, In p ps /\ p_version p = None /\
    exists a b c, filter (fun p => negb (before_split v p)) ps = a ++ b :: c /\ b = p /\ In q (a ++ c).
Proof.
  cbn [reorder].
  assert (sort_unwrap (filter (before_split v) ps) <> Panic) as Hb.
  { apply sort_unwrap_ok. intros p Hp. apply filter_In in Hp as [_ Hp]. unfold before_split in Hp.
    destruct (p_version p); [discriminate|discriminate Hp]. }
  destruct (sort_unwrap (filter (before_split v) ps)); [|congruence].
  set (late := filter (fun p => negb (before_split v p)) ps).
  unfold sort_unwrap. destruct ((2 <=? length late) && existsb _ late) eqn:E.
  - split; [|reflexivity]. intros _. apply andb_true_iff in E as [E1 E2]. apply Nat.leb_le in E1.
    apply existsb_exists in E2 as (p & Hp & Ep). destruct (p_version p) eqn:Ev; [discriminate|].
    pose proof Hp as Hp'. apply filter_In in Hp' as [Hps _]. apply in_split in Hp as (x & y & Exy).
    assert (exists q, In q (x ++ y)) as [q Hq].
    { rewrite Exy, app_length in E1. cbn [length] in E1. destruct x as [|q x].
      - destruct y as [|q y]; [simpl in E1; lia|]. exists q. left. reflexivity.
      - exists q. left. reflexivity. }
    exists p, q. split; [exact Hps|]. split; [exact Ev|]. exists x, p, y. auto.
  - split; [discriminate|]. intros (p & q & _ & Ev & x & b & y & El & -> & Hq). exfalso.
    apply andb_false_iff in E as [E|E].
    + apply Nat.leb_gt in E. rewrite El, app_length in E. cbn [length] in E.
      assert (length x + length y = 0) as H0 by lia. rewrite <- app_length in H0. destruct (x ++ y); [destruct Hq|discriminate].
    + rewrite existsb_false_forall in E. specialize (E p). rewrite Ev in E. rewrite El in E.
      assert (true = false) by (apply E; apply in_app_iff; right; left; reflexivity). discriminate.
Qed.

(** ** lists of orderers, plain data *)
Lemma find_first {A} (f : A -> bool) l x : find f l = Some x <-> exists a b, l = a ++ x :: b /\ f x = true /\ forall y, In y a -> f y = false.
Proof.
  induction l as [|y l IH]; cbn [find].
  - split; [discriminate|]. intros (a & b & H & _). destruct a; discriminate.
  - destruct (f y) eqn:E.
    + split; [intros [= <-]; exists [], l; repeat split; auto; intros ? []|].
      intros (a & b & H & Hx & Ha). destruct a as [|z a]; injection H as -> ->; [reflexivity|].
      specialize (Ha z (or_introl eq_refl)). congruence.
    + rewrite IH. split.
      * intros (a & b & -> & Hx & Ha). exists (y :: a), b. split; [reflexivity|]. split; [exact Hx|].
        intros z [<-|Hz]; auto.
      * intros (a & b & H & Hx & Ha). destruct a as [|z a]; injection H as -> ->; [congruence|].
        exists a, b. split; [reflexivity|]. split; [exact Hx|]. intros w Hw. apply Ha. right. exact Hw.
Qed.
Lemma families_roundtrip f rest : jget (T "packages") (JObj rest) = Some (families_pod f) -> families_from (JObj rest) = f.
Proof.
  intros H. unfold families_from. rewrite H. destruct f as [l|]; cbn [families_pod as_array]; [|reflexivity].
  rewrite filter_map_all; [reflexivity|]. reflexivity.
Qed.
Lemma as_i64_in z : (-9223372036854775808 <= z <= 9223372036854775807)%Z -> as_i64 (JNum z) = Some z.
Proof.
  intros H. unfold as_i64. change I64_MIN with (-9223372036854775808)%Z. change (Z.of_N I64_MAX) with 9223372036854775807%Z.
  rewrite (proj2 (Z.leb_le _ _)), (proj2 (Z.leb_le _ _)) by lia. reflexivity.
Qed.
Lemma pod_roundtrip o : flat o -> holdable o -> order_from_pod (order_to_pod o) = Some o.
Proof.
  destruct o as [f|d f|v f|dict def|t r f]; intros Hf Hh; try destruct Hf.
  - unfold order_from_pod. cbn [order_to_pod]. change (jget (T "type") _) with (Some (JStr (T "no_order"))).
    cbv iota. replace (text_eqb (T "no_order") (T "no_order")) with true by reflexivity. cbv iota.
    rewrite (families_roundtrip f) by reflexivity. reflexivity.
  - unfold order_from_pod. cbn [order_to_pod]. change (jget (T "type") _) with (Some (JStr (T "sorted"))).
    change (jget (T "descending") _) with (Some (JBool d)). cbv iota.
    replace (text_eqb (T "sorted") (T "no_order")) with false by reflexivity.
    replace (text_eqb (T "sorted") (T "sorted")) with true by reflexivity. cbv iota.
    rewrite (families_roundtrip f) by reflexivity. reflexivity.
  - unfold order_from_pod. cbn [order_to_pod]. change (jget (T "type") _) with (Some (JStr (T "version_split"))).
    change (jget (T "first_version") _) with (Some (JStr (v_str v))). cbv iota.
    replace (text_eqb (T "version_split") (T "no_order")) with false by reflexivity.
    replace (text_eqb (T "version_split") (T "sorted")) with false by reflexivity.
    replace (text_eqb (T "version_split") (T "version_split")) with true by reflexivity. cbv iota.
    destruct Hh as [s Hs]. rewrite (parse_version_roundtrip _ _ Hs). rewrite (families_roundtrip f) by reflexivity. reflexivity.
  - unfold order_from_pod. cbn [order_to_pod]. change (jget (T "type") _) with (Some (JStr (T "soft_timestamp"))).
    change (jget (T "timestamp") _) with (Some (JNum t)). change (jget (T "rank") _) with (Some (JNum r)). cbv iota.
    replace (text_eqb (T "soft_timestamp") (T "no_order")) with false by reflexivity.
    replace (text_eqb (T "soft_timestamp") (T "sorted")) with false by reflexivity.
    replace (text_eqb (T "soft_timestamp") (T "version_split")) with false by reflexivity.
    replace (text_eqb (T "soft_timestamp") (T "soft_timestamp")) with true by reflexivity. cbv iota.
    destruct Hh as [Ht Hr]. rewrite as_i64_in by exact Ht. rewrite as_i64_in by lia.
    rewrite (families_roundtrip f) by reflexivity. unfold wrap_i32. rewrite Z.mod_small by lia.
    replace (r + 2147483648 - 2147483648)%Z with r by lia. reflexivity.
Qed.
Lemma pod_list_roundtrip l : Forall (fun o => flat o /\ holdable o) l -> order_list_from_pod (order_list_to_pod l) = l.
Proof.
  unfold order_list_from_pod, order_list_to_pod. induction 1 as [|o l [H1 H2] Hl IH]; [reflexivity|].
  cbn [map filter_map]. rewrite pod_roundtrip, IH by assumption. reflexivity.
Qed.
