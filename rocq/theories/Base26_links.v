(** Proofs about unique links. *)
From Verif Require Import Base Base_lemmas Text_lemmas Maps Sorting Order_spec Graph_topo Base26_model Base26_spec Base26_proofs.

Lemma find_match_sound ord d source n : any_order ord -> find_match ord d source = Some n -> In (n, Link source) d.
Proof.
  intros Ho. unfold find_match. destruct (find _ (ord d)) as [[m e]|] eqn:E; [|discriminate]. intros [= ->]. apply find_some in E as [H1 H2].
  cbn [snd] in H2. destruct e as [t|]; [|discriminate]. apply text_eqb_eq in H2 as ->. apply (Permutation_in _ (Ho d)), H1.
Qed.
Lemma find_match_none ord d source : any_order ord -> (find_match ord d source = None <-> forall n, ~ In (n, Link source) d).
Proof.
  intros Ho. split.
  - unfold find_match. destruct (find _ (ord d)) as [[m e]|] eqn:E; [discriminate|]. intros _ n Hn.
    apply (Permutation_in _ (Permutation_sym (Ho d))) in Hn. pose proof (find_none _ _ E _ Hn) as K. cbn [snd] in K. rewrite text_eqb_refl in K. discriminate.
  - intros H. destruct (find_match ord d source) as [n|] eqn:E; [|reflexivity]. exfalso. apply (H n), (find_match_sound ord); assumption.
Qed.
Definition is_max (l : list text) (m : text) : Prop :=
  In m l /\ lowercase m /\ forall n, In n l -> lowercase n -> text_cmp n m <> Gt.
Lemma cmp_flip a b : text_cmp a b <> Gt -> text_cmp b a <> Lt.
Proof. intros H K. pose proof (tpo_anti _ _ TPO_text a b I I) as E. rewrite K in E. apply H. destruct (text_cmp a b); cbn in E; congruence. Qed.
Lemma is_gt_flip a b : is_gt (text_cmp a b) = true -> text_cmp b a <> Gt.
Proof. intros H K. pose proof (tpo_anti _ _ TPO_text a b I I) as E. rewrite K in E. destruct (text_cmp a b); cbn in *; congruence. Qed.
Lemma cmp_refl a : text_cmp a a = Eq.
Proof. apply text_cmp_eq. reflexivity. Qed.
Lemma fold_max l : forall seen acc,
  (match acc with Some m => is_max seen m | None => forall n, In n seen -> ~ lowercase n end) ->
  match fold_left max_step l acc with Some m => is_max (seen ++ l) m | None => forall n, In n (seen ++ l) -> ~ lowercase n end.
Proof.
  induction l as [|x l IH]; intros seen acc H; cbn [fold_left]; [rewrite app_nil_r; exact H|].
  replace (seen ++ x :: l) with ((seen ++ [x]) ++ l) by (rewrite <- app_assoc; reflexivity). apply IH. unfold max_step.
  destruct (forallb is_lower x) eqn:E.
  - apply lower_iff in E. destruct acc as [m|].
    + destruct H as (H1 & H2 & H3). destruct (is_gt (text_cmp x m)) eqn:G.
      * split; [apply in_or_app; right; left; reflexivity|]. split; [exact E|]. intros n Hn Ln.
        apply in_app_or in Hn as [Hn|[<-|[]]]; [|rewrite cmp_refl; discriminate].
        apply (tpo_trans _ _ TPO_text n m x I I I); [apply H3; assumption|apply is_gt_flip, G].
      * split; [apply in_or_app; left; exact H1|]. split; [exact H2|]. intros n Hn Ln.
        apply in_app_or in Hn as [Hn|[<-|[]]]; [apply H3; assumption|]. destruct (text_cmp x m); discriminate.
    + split; [apply in_or_app; right; left; reflexivity|]. split; [exact E|]. intros n Hn Ln.
      apply in_app_or in Hn as [Hn|[<-|[]]]; [destruct (H n Hn Ln)|rewrite cmp_refl; discriminate].
  - assert (~ lowercase x) as Nx by (intros K; apply lower_iff in K; congruence). destruct acc as [m|].
    + destruct H as (H1 & H2 & H3). split; [apply in_or_app; left; exact H1|]. split; [exact H2|]. intros n Hn Ln.
      apply in_app_or in Hn as [Hn|[<-|[]]]; [apply H3; assumption|contradiction].
    + intros n Hn. apply in_app_or in Hn as [Hn|[<-|[]]]; [apply H, Hn|exact Nx].
Qed.
Lemma fold_max_spec l : match fold_left max_step l None with Some m => is_max l m | None => forall n, In n l -> ~ lowercase n end.
Proof. apply (fold_max l [] None). intros n []. Qed.
Lemma is_max_unique l m m' : is_max l m -> is_max l m' -> m = m'.
Proof.
  intros (H1 & H2 & H3) (K1 & K2 & K3). apply text_cmp_eq. pose proof (H3 m' K1 K2) as A. pose proof (K3 m H1 H2) as B.
  apply cmp_flip in A. destruct (text_cmp m m'); congruence.
Qed.
Lemma is_max_perm l l' m : Permutation l l' -> is_max l m -> is_max l' m.
Proof.
  intros P (H1 & H2 & H3). split; [apply (Permutation_in _ P), H1|]. split; [exact H2|]. intros n Hn. apply H3, (Permutation_in _ (Permutation_sym P)), Hn.
Qed.
Lemma max_name_keys ord d : any_order ord -> max_name ord d = fold_left max_step (akeys d) None.
Proof.
  intros Ho. unfold max_name. assert (Permutation (akeys (ord d)) (akeys d)) as P by (apply Permutation_map, Ho).
  pose proof (fold_max_spec (akeys (ord d))) as A. pose proof (fold_max_spec (akeys d)) as B.
  destruct (fold_left max_step (akeys (ord d)) None) as [m|]; destruct (fold_left max_step (akeys d) None) as [m'|].
  - f_equal. apply (is_max_unique (akeys d)); [apply (is_max_perm _ _ _ P A)|exact B].
  - exfalso. destruct (is_max_perm _ _ _ P A) as (H1 & H2 & _). apply (B m H1 H2).
  - exfalso. destruct B as (H1 & H2 & _). apply (A m'); [apply (Permutation_in _ (Permutation_sym P)), H1|exact H2].
  - reflexivity.
Qed.
Lemma next_of_max ord d : any_order ord -> exists n, next_base26 (max_name ord d) = Some n.
Proof.
  intros Ho. rewrite max_name_keys by exact Ho. pose proof (fold_max_spec (akeys d)) as A. destruct (fold_left max_step (akeys d) None) as [m|].
  - destruct A as (_ & L & _). rewrite (next_valid m L). eauto.
  - eexists; reflexivity.
Qed.

(** ** creation *)
Lemma attempts_created world tries source : additive world -> forall i name d n d', lowercase name -> name <> [] ->
  attempts world tries i source name d = Created n d' ->
  exists l, d' = (d ++ l) ++ [(n, Link source)] /\ ~ In n (akeys (d ++ l)) /\ lowercase n /\ n <> [].
Proof.
  intros Hw. induction tries as [|t IH]; intros i name d n d' L Hne; cbn [attempts]; [discriminate|].
  destruct (Hw i d) as [l0 El]. rewrite El. destruct (mem_text name (akeys (d ++ l0))) eqn:E.
  - destruct (next_base26 (Some name)) as [m|] eqn:Em; [|discriminate]. intros H. destruct (next_name _ _ Em) as [Lm Hm].
    destruct (IH (S i) m (d ++ l0) n d' Lm Hm H) as (l & -> & H2 & H3). exists (l0 ++ l). rewrite !app_assoc. split; [reflexivity|]. split; [exact H2|exact H3].
  - intros [= <- <-]. exists l0. split; [reflexivity|]. split; [apply mem_text_false, E|split; assumption].
Qed.
Lemma create_existing ord1 ord2 world source d : any_order ord1 -> any_order ord2 ->
  (exists n, In (n, Link source) d) <-> (exists n, In (n, Link source) d /\ create_link ord1 ord2 world source d = Existing n).
Proof.
  intros H1 H2. split; [|intros (n & H & _); exists n; exact H]. intros [n Hn]. unfold create_link. destruct (find_match ord1 d source) as [m|] eqn:E.
  - exists m. split; [apply (find_match_sound ord1); assumption|reflexivity].
  - exfalso. apply (proj1 (find_match_none ord1 d source H1) E n Hn).
Qed.
Lemma attempts_not_existing world tries source n : forall i name d, attempts world tries i source name d <> Existing n.
Proof.
  induction tries as [|t IH]; intros i name d; cbn [attempts]; [discriminate|]. destruct (mem_text name _); [|discriminate].
  destruct (next_base26 (Some name)); [apply IH|discriminate].
Qed.
Lemma create_fresh ord1 ord2 world source d n d' : any_order ord1 -> any_order ord2 -> additive world ->
  create_link ord1 ord2 world source d = Created n d' ->
  (forall m, ~ In (m, Link source) d) /\
  exists l, d' = (d ++ l) ++ [(n, Link source)] /\ ~ In n (akeys (d ++ l)) /\ lowercase n /\ n <> [].
Proof.
  intros H1 H2 Hw. unfold create_link. destruct (find_match ord1 d source) as [m|] eqn:E; [discriminate|].
  destruct (next_base26 _) as [m|] eqn:Em; [|discriminate]. intros H. split; [apply (find_match_none ord1); assumption|].
  destruct (next_name _ _ Em) as [Lm Hm]. destruct (attempts_created world 10 source Hw _ _ _ _ _ Lm Hm H) as (l & -> & H3 & H4).
  destruct (Hw 0 d) as [l0 El]. rewrite El in *. exists (l0 ++ l). rewrite !app_assoc. split; [reflexivity|]. split; [exact H3|exact H4].
Qed.

(** ** when it succeeds *)
(** the first free name among the next ones *)
Fixpoint first_free (tries : nat) (name : text) (l : list text) : option text :=
  match tries with
  | O => None
  | S t => if mem_text name l then match next_base26 (Some name) with Some n => first_free t n l | None => None end else Some name
  end.
Lemma attempts_free tries source : forall i name d,
  attempts quiet tries i source name d =
  match first_free tries name (akeys d) with Some n => Created n (d ++ [(n, Link source)]) | None => Exhausted end.
Proof.
  induction tries as [|t IH]; intros i name d; cbn [attempts first_free]; [reflexivity|]. change (quiet i d) with d.
  destruct (mem_text name (akeys d)); [|reflexivity]. destruct (next_base26 (Some name)); [apply IH|reflexivity].
Qed.
Lemma first_free_none tries l : forall k name, nth_name k = Some name ->
  (first_free tries name l = None <-> forall j n, j < tries -> nth_name (k + j) = Some n -> In n l).
Proof.
  induction tries as [|t IH]; intros k name Hk; cbn [first_free]; [split; [intros; lia|reflexivity]|].
  destruct (mem_text name l) eqn:E.
  - apply mem_text_In in E. destruct (nth_name_val (S k)) as (m & Em & _). pose proof Em as Em'. cbn [nth_name] in Em'. rewrite Hk in Em'. rewrite Em'.
    rewrite (IH (S k) m Em). split.
    + intros H [|j] n Hj Hn; [rewrite Nat.add_0_r, Hk in Hn; injection Hn as <-; exact E|]. apply (H j); [lia|]. replace (S k + j) with (k + S j) by lia. exact Hn.
    + intros H j n Hj Hn. apply (H (S j)); [lia|]. replace (k + S j) with (S k + j) by lia. exact Hn.
  - apply mem_text_false in E. split; [discriminate|]. intros H. exfalso. apply E, (H 0 name); [lia|]. rewrite Nat.add_0_r. exact Hk.
Qed.
Lemma create_exhausted ord1 ord2 source d : any_order ord1 -> any_order ord2 -> (forall n, ~ In (n, Link source) d) ->
  exists k, nth_name k = next_base26 (max_name ord2 d) /\
    (create_link ord1 ord2 quiet source d = Exhausted <-> forall j n, j < 10 -> nth_name (k + j) = Some n -> In n (akeys d)).
Proof.
  intros H1 H2 Hn. unfold create_link. rewrite (proj2 (find_match_none ord1 d source H1) Hn). change (quiet 0 d) with d.
  destruct (next_of_max ord2 d H2) as [m Em]. rewrite Em. destruct (next_name _ _ Em) as [Lm Hm]. destruct (nth_name_onto m Lm Hm) as [k Hk].
  exists k. split; [exact Hk|]. rewrite attempts_free, <- (first_free_none 10 (akeys d) k m Hk). destruct (first_free 10 m (akeys d)); split; congruence.
Qed.
Lemma shortlex_last m n : text_cmp n m <> Gt -> length n <= length m -> n = m \/ shortlex n m.
Proof.
  intros H1 H2. destruct (text_cmp n m) eqn:E; [left; apply text_cmp_eq, E| |congruence]. right.
  destruct (Nat.eq_dec (length n) (length m)) as [El|El]; [right; auto|left; lia].
Qed.
Lemma create_even ord1 ord2 source d : any_order ord1 -> any_order ord2 -> even_names d -> (forall n, ~ In (n, Link source) d) ->
  exists n, next_base26 (max_name ord2 d) = Some n /\ create_link ord1 ord2 quiet source d = Created n (d ++ [(n, Link source)]).
Proof.
  intros H1 H2 He Hn. unfold create_link. rewrite (proj2 (find_match_none ord1 d source H1) Hn). change (quiet 0 d) with d.
  destruct (next_of_max ord2 d H2) as [m Em]. rewrite Em. exists m. split; [reflexivity|]. rewrite attempts_free. cbn [first_free].
  assert (mem_text m (akeys d) = false) as ->; [|reflexivity]. apply mem_text_false. intros Hin. destruct (next_name _ _ Em) as [Lm _].
  rewrite max_name_keys in Em by exact H2. pose proof (fold_max_spec (akeys d)) as A. destruct (fold_left max_step (akeys d) None) as [x|].
  - destruct A as (A1 & A2 & A3). pose proof (A3 m Hin Lm) as Hc. pose proof (He x A1 A2 A3 m Hin Lm) as Hl. pose proof (next_shortlex _ _ Em) as Hs.
    destruct (shortlex_last x m Hc Hl) as [->|K]; [apply (shortlex_irrefl x Hs)|apply (shortlex_irrefl x), (shortlex_trans x m x Hs K)].
  - apply (A m Hin Lm).
Qed.

(** ** the capacity of a directory *)
Fixpoint names (k : nat) : list text :=
  match k with O => [] | S j => names j ++ match nth_name j with Some s => [s] | None => [] end end.
Definition next_free (l : list text) : option text :=
  match next_base26 (fold_left max_step l None) with Some m => first_free 10 m l | None => None end.
Definition opt_text_eqb (a b : option text) : bool :=
  match a, b with Some x, Some y => text_eqb x y | None, None => true | _, _ => false end.
Lemma opt_text_eqb_eq a b : opt_text_eqb a b = true -> a = b.
Proof. destruct a as [x|], b as [y|]; cbn; try discriminate; [|reflexivity]. intros H. apply text_eqb_eq in H as ->. reflexivity. Qed.
Lemma next_free_36 : forallb (fun k => opt_text_eqb (next_free (names k)) (nth_name k)) (seq 0 36) = true.
Proof. vm_compute. reflexivity. Qed.
Lemma next_free_full : next_free (names 36) = None.
Proof. vm_compute. reflexivity. Qed.
Lemma next_free_name k : k < 36 -> next_free (names k) = nth_name k.
Proof. intros H. apply opt_text_eqb_eq. apply (proj1 (forallb_forall _ _) next_free_36). apply in_seq. lia. Qed.
Lemma create_next_free ord1 ord2 source d : any_order ord1 -> any_order ord2 -> (forall n, ~ In (n, Link source) d) ->
  create_link ord1 ord2 quiet source d =
  match next_free (akeys d) with Some n => Created n (d ++ [(n, Link source)]) | None => Exhausted end.
Proof.
  intros H1 H2 Hn. unfold create_link. rewrite (proj2 (find_match_none ord1 d source H1) Hn). change (quiet 0 d) with d. unfold next_free.
  rewrite max_name_keys by exact H2. destruct (next_base26 _) as [m|]; [|reflexivity]. apply attempts_free.
Qed.
Lemma link_all_run ord1 ord2 : any_order ord1 -> any_order ord2 -> forall sources k d, akeys d = names k -> k + length sources <= 36 -> NoDup sources ->
  (forall s n, In s sources -> ~ In (n, Link s) d) ->
  exists d', link_all ord1 ord2 sources d = Some d' /\ akeys d' = names (k + length sources) /\ map snd d' = map snd d ++ map Link sources.
Proof.
  intros H1 H2. induction sources as [|s ss IH]; intros k d Hk Hl Hnd Hs; cbn [link_all].
  - exists d. cbn [length map]. rewrite Nat.add_0_r, app_nil_r. auto.
  - cbn [length] in Hl. rewrite (create_next_free ord1 ord2) by (auto; intros n; apply Hs; left; reflexivity).
    rewrite Hk, next_free_name by lia. destruct (nth_name_val k) as (m & Em & _). rewrite Em.
    destruct (IH (S k) (d ++ [(m, Link s)])) as (d' & E1 & E2 & E3).
    + unfold akeys. rewrite map_app. cbn [map fst names]. rewrite Em. fold (akeys d). rewrite Hk. reflexivity.
    + lia.
    + inversion Hnd; assumption.
    + intros x n Hx Hin. apply in_app_or in Hin as [Hin|[[= _ ->]|[]]]; [apply (Hs x n (or_intror Hx) Hin)|]. inversion Hnd; contradiction.
    + exists d'. split; [exact E1|]. split; [rewrite E2; f_equal; cbn [length]; lia|]. rewrite E3, map_app, <- app_assoc. reflexivity.
Qed.
Lemma link_all_36 ord1 ord2 sources : any_order ord1 -> any_order ord2 -> NoDup sources -> length sources <= 36 ->
  exists d, link_all ord1 ord2 sources [] = Some d /\ akeys d = names (length sources) /\ map snd d = map Link sources.
Proof.
  intros H1 H2 Hnd Hl. destruct (link_all_run ord1 ord2 H1 H2 sources 0 [] eq_refl Hl Hnd) as (d & E); [intros s n _ []|]. exists d. exact E.
Qed.
Lemma link_all_app ord1 ord2 xs ys : forall d, link_all ord1 ord2 (xs ++ ys) d =
  match link_all ord1 ord2 xs d with Some d' => link_all ord1 ord2 ys d' | None => None end.
Proof.
  induction xs as [|x xs IH]; intros d; cbn [app link_all]; [reflexivity|]. destruct (create_link ord1 ord2 quiet x d); [apply IH|apply IH|reflexivity].
Qed.
Lemma link_all_capacity ord1 ord2 sources : any_order ord1 -> any_order ord2 -> NoDup sources ->
  (link_all ord1 ord2 sources [] <> None <-> length sources <= 36).
Proof.
  intros H1 H2 Hnd. split.
  - intros H. destruct (le_lt_dec (length sources) 36) as [Hl|Hl]; [exact Hl|]. exfalso. apply H.
    rewrite <- (firstn_skipn 36 sources), link_all_app. rewrite <- (firstn_skipn 36 sources) in Hnd.
    assert (length (firstn 36 sources) = 36) as Hf by (apply firstn_length_le; lia).
    destruct (nodup_app_split _ _ Hnd) as (N1 & N2 & N3).
    destruct (link_all_36 ord1 ord2 (firstn 36 sources) H1 H2 N1) as (d & E & Ek & Es); [lia|]. rewrite E.
    destruct (skipn 36 sources) as [|s ss] eqn:Esk.
    { apply (f_equal (@length text)) in Esk. rewrite skipn_length in Esk. cbn in Esk. lia. }
    cbn [link_all]. rewrite (create_next_free ord1 ord2).
    + rewrite Ek, Hf, next_free_full. reflexivity.
    + exact H1.
    + exact H2.
    + intros n Hin. apply (in_map snd) in Hin. rewrite Es in Hin. cbn [snd] in Hin. apply in_map_iff in Hin as (x & [= ->] & Hx).
      apply (N3 s Hx). left. reflexivity.
  - intros Hl. destruct (link_all_36 ord1 ord2 sources H1 H2 Hnd Hl) as (d & -> & _). discriminate.
Qed.
