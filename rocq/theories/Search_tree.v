(** The layers of a reverse dependency tree are the packages by distance. *)
From Verif Require Import Base Base_lemmas Maps Sorting Package_model Search_model Search_spec.
From Verif Require Import Env_proofs.
From Coq Require Import Lia Sorted.

(** ** Walks and distances *)
Fixpoint ball (f : text -> list text) (a : text) (n : nat) : list text := match n with 0 => [a] | S k => flat_map f (ball f a k) end.
Lemma ball_walk f a n b : In b (ball f a n) <-> walk f a n b.
Proof.
  revert b. induction n as [|n IH]; intros b; cbn [ball].
  - split; [intros [<-|[]]; constructor|intros H; inversion H; now left].
  - rewrite in_flat_map. split.
    + intros (x & I & K). apply IH in I. econstructor; eassumption.
    + intros H. inversion H as [|? x ? W I]; subst. exists x. split; [apply IH, W|exact I].
Qed.
Lemma walk_dec f a n b : {walk f a n b} + {~ walk f a n b}.
Proof. destruct (in_dec (list_eq_dec ascii_dec) b (ball f a n)) as [H|H]; [left; apply ball_walk, H|right; intros W; apply H, ball_walk, W]. Qed.
Lemma below_dec f a b n : {m | m < n /\ walk f a m b} + {forall m, m < n -> ~ walk f a m b}.
Proof.
  induction n as [|n [(m & L & W)|IH]]; [right; lia|left; exists m; split; [lia|exact W]|].
  destruct (walk_dec f a n b) as [W|W]; [left; exists n; split; [lia|exact W]|]. right. intros m L. destruct (Nat.eq_dec m n) as [->|]; [exact W|apply IH; lia].
Qed.
Lemma walk_distance f a b n : walk f a n b -> exists k, k <= n /\ distance f a k b.
Proof.
  induction n as [n IH] using lt_wf_ind. intros W. destruct (below_dec f a b n) as [(m & L & V)|N].
  - destruct (IH m L V) as (k & A & B). exists k. split; [lia|exact B].
  - exists n. split; [lia|]. split; assumption.
Qed.
Lemma distance_unique f a b m n : distance f a m b -> distance f a n b -> m = n.
Proof. intros [A B] [C D]. destruct (Nat.lt_trichotomy m n) as [L|[L|L]]; [destruct (D _ L A)|exact L|destruct (B _ L C)]. Qed.
Lemma distance_zero f a b : distance f a 0 b <-> b = a.
Proof. split; [intros [W _]; inversion W; reflexivity|intros ->; split; [constructor|lia]]. Qed.
Lemma distance_back f a n b : distance f a (S n) b -> exists x, distance f a n x /\ In b (f x).
Proof.
  intros [W N]. inversion W as [|? x ? V I]; subst. exists x. split; [|exact I]. split; [exact V|]. intros m L X. apply (N (S m)); [lia|]. econstructor; eassumption.
Qed.
Lemma distance_step f a n b : distance f a (S n) b <-> (~ exists k, k <= n /\ distance f a k b) /\ exists x, distance f a n x /\ In b (f x).
Proof.
  split.
  - intros H. split; [|apply distance_back, H]. intros (k & L & K). pose proof (distance_unique _ _ _ _ _ H K). lia.
  - intros [N (x & [W _] & I)]. split; [econstructor; eassumption|]. intros m L V. apply walk_distance in V. destruct V as (k & A & B). apply N. exists k. split; [lia|exact B].
Qed.
Lemma distance_empty f a n : (forall b, ~ distance f a n b) -> forall k b, n <= k -> ~ distance f a k b.
Proof. intros H k. induction k as [|k IH]; intros b L D; [apply (H b); replace n with 0 by lia; exact D|]. destruct (Nat.eq_dec n (S k)) as [->|]; [apply (H b D)|]. apply distance_back in D. destruct D as (x & D & _). apply (IH x); [lia|exact D]. Qed.

(** ** One layer *)
Definition children (g : list (text * list text)) : list text := flat_map snd g.
Lemma children_put (x d : text) (g : list (text * list text)) : Permutation (children (aput x (match aget x g with Some l => l | None => [] end ++ [d]) g)) (d :: children g).
Proof.
  induction g as [|[k l] g IH]; [reflexivity|]. cbn [aput aget]. destruct (text_eqb x k) eqn:E.
  - unfold children. cbn [flat_map snd]. rewrite <- app_assoc. symmetry. apply Permutation_middle.
  - unfold children in *. cbn [flat_map snd]. rewrite IH. symmetry. apply Permutation_middle.
Qed.
Lemma edge_put x d g a b : NoDup (akeys g) -> edge (aput x (match aget x g with Some l => l | None => [] end ++ [d]) g) a b -> edge g a b \/ (a = x /\ b = d).
Proof.
  intros N (l & I & K). apply aput_in in I; [|exact N]. destruct I as [[-> ->]|[_ I]]; [|left; exists l; auto].
  apply in_app_iff in K. destruct K as [K|[<-|[]]]; [|right; auto]. left. destruct (aget x g) as [o|] eqn:G; [|destruct K]. exists o. split; [apply aget_in, G|exact K].
Qed.
Definition visits (l : list (text * text)) (s : wstate) : wstate := fold_left (fun s e => visit (fst e) s (snd e)) l s.
Definition pairs (deps : text -> list text) (layer : list text) : list (text * text) := flat_map (fun x => map (pair x) (deps x)) layer.
Lemma expand_visits deps layer : forall s, expand deps layer s = visits (pairs deps layer) s.
Proof.
  induction layer as [|x layer IH]; intros s; [reflexivity|]. unfold expand, visits, pairs in *. cbn [fold_left flat_map]. rewrite fold_left_app, IH. f_equal.
  generalize (deps x). clear. intros l. revert s. induction l as [|d l IH]; intros s; [reflexivity|]. cbn [fold_left map fst snd]. apply IH.
Qed.
Lemma visits_spec seen0 l : forall next graph, NoDup (rev next ++ seen0) -> NoDup (akeys graph) ->
  exists added graph', visits l (next, rev next ++ seen0, graph) = (next ++ added, rev (next ++ added) ++ seen0, graph') /\ NoDup (rev (next ++ added) ++ seen0) /\ NoDup (akeys graph') /\
  (forall y, In y added -> exists x, In (x, y) l) /\ (forall x y, In (x, y) l -> In y seen0 \/ In y (next ++ added)) /\
  Permutation (children graph') (added ++ children graph) /\ (forall x y, edge graph' x y -> edge graph x y \/ (In (x, y) l /\ In y added)).
Proof.
  induction l as [|[x d] l IH]; intros next graph N NK.
  - exists [], graph. rewrite app_nil_r. repeat split; auto; intros; contradiction.
  - change (visits ((x, d) :: l) (next, rev next ++ seen0, graph)) with (visits l (visit x (next, rev next ++ seen0, graph) d)). cbn [visit]. destruct (mem_text d (rev next ++ seen0)) eqn:M.
    + apply mem_text_in in M. destruct (IH next graph N NK) as (ad & g & E & A & B & C & D & F & G). exists ad, g. rewrite E. repeat split; auto.
      * intros y Y. destruct (C y Y) as (z & Z). exists z. now right.
      * intros a y [I|I]; [|exact (D a y I)]. injection I as <- <-. apply in_app_iff in M. rewrite <- in_rev in M. rewrite in_app_iff. tauto.
      * intros a y I. destruct (G a y I) as [K|[K L]]; [now left|right; split; [now right|exact L]].
    + assert (M' : ~ In d (rev next ++ seen0)) by (rewrite <- mem_text_in; congruence).
      assert (R : d :: rev next ++ seen0 = rev (next ++ [d]) ++ seen0) by (rewrite rev_app_distr; reflexivity). rewrite R.
      destruct (IH (next ++ [d]) (aput x (match aget x graph with Some o => o | None => [] end ++ [d]) graph)) as (ad & g & E & A & B & C & D & F & G).
      { rewrite <- R. constructor; assumption. } { apply nodup_put, NK. }
      exists (d :: ad), g. rewrite E. rewrite <- app_assoc in A, D |- *. cbn [app] in A, D |- *. repeat split; auto.
      * intros y [<-|Y]; [exists x; now left|]. destruct (C y Y) as (z & Z). exists z. now right.
      * intros a y [I|I]; [|exact (D a y I)]. injection I as <- <-. right. apply in_app_iff. right. now left.
      * rewrite F. rewrite children_put. symmetry. apply Permutation_middle.
      * intros a y I. destruct (G a y I) as [K|[K L]]; [|right; split; [now right|now right]]. apply edge_put in K; [|exact NK]. destruct K as [K|[-> ->]]; [now left|]. right. split; now left.
Qed.

(** ** The rounds *)
Section Rounds.
Context (deps : text -> list text) (target : text).
Let dist := distance deps target.
Record inv (i : nat) (current seen : list text) (graph : list (text * list text)) (layers : list (list text)) : Prop := {
  inv_layers : forall k x, In x (nth k layers []) <-> k <= i /\ dist k x;
  inv_length : length layers = match current with [] => i | _ => S i end;
  inv_current : forall x, In x current <-> dist i x;
  inv_seen : forall x, In x seen <-> exists k, k <= i /\ dist k x;
  inv_concat : Permutation seen (concat layers);
  inv_nodup : NoDup seen;
  inv_keys : NoDup (akeys graph);
  inv_children : Permutation seen (target :: children graph);
  inv_edges : forall x y, edge graph x y -> In y (deps x) /\ exists k, dist k x /\ dist (S k) y;
  inv_full : Forall (fun l => l <> []) layers }.
Lemma inv_start : inv 0 [target] [target] [] [[target]].
Proof.
  constructor; try reflexivity.
  - intros k x. destruct k as [|[|k]]; cbn [nth In].
    + unfold dist. rewrite distance_zero. split; [intros [<-|[]]; split; [lia|reflexivity]|intros [_ ->]; now left].
    + split; [intros []|lia].
    + split; [intros []|lia].
  - intros x. unfold dist. rewrite distance_zero. cbn. intuition congruence.
  - intros x. split; [intros [<-|[]]; exists 0; split; [lia|apply distance_zero; reflexivity]|intros (k & L & D); left; replace k with 0 in D by lia; apply distance_zero in D; congruence].
  - constructor; [intros []|constructor].
  - constructor.
  - intros x y (l & [] & _).
  - constructor; [discriminate|constructor].
Qed.
Lemma in_pairs layer x y : In (x, y) (pairs deps layer) <-> In x layer /\ In y (deps x).
Proof.
  unfold pairs. rewrite in_flat_map. split.
  - intros (z & I & K). apply in_map_iff in K. destruct K as (w & K & W). injection K as -> ->. auto.
  - intros [I K]. exists x. split; [exact I|]. apply in_map, K.
Qed.
Lemma inv_step i current seen graph layers : inv i current seen graph layers -> current <> [] ->
  exists next graph', expand deps current ([], seen, graph) = (next, rev next ++ seen, graph') /\ inv (S i) next (rev next ++ seen) graph' (if is_nil next then layers else layers ++ [next]) /\
    (forall y, In y next -> exists x, In y (deps x)).
Proof.
  intros H NE. destruct (visits_spec seen (pairs deps current) [] graph (inv_nodup _ _ _ _ _ H) (inv_keys _ _ _ _ _ H)) as (next & g & E & A & B & C & D & F & G). cbn [app rev] in E, A, D.
  rewrite <- expand_visits in E. exists next, g. split; [exact E|].
  assert (Dis : forall y, In y next -> ~ In y seen). { intros y Y Z. apply in_rev in Y. clear - A Y Z. induction (rev next) as [|a l IH]; [destruct Y|]. cbn in A. inversion A as [|? ? N1 N2]; subst. destruct Y as [->|Y]; [apply N1, in_app_iff; auto|auto]. }
  assert (Cur : forall x, In x next <-> dist (S i) x).
  { intros y. unfold dist. rewrite distance_step. split.
    - intros Y. split; [intros Z; apply (Dis y Y), (inv_seen _ _ _ _ _ H y), Z|]. destruct (C y Y) as (x & X). apply in_pairs in X. destruct X as [X Z]. exists x. split; [apply (inv_current _ _ _ _ _ H), X|exact Z].
    - intros [N (x & X & Z)]. apply (inv_current _ _ _ _ _ H) in X. destruct (D x y) as [K|K]; [apply in_pairs; auto|exfalso; apply N, (inv_seen _ _ _ _ _ H), K|exact K]. }
  pose proof (inv_length _ _ _ _ _ H) as Len. assert (Len' : length layers = S i) by (destruct current; [congruence|exact Len]). clear Len.
  split; [|intros y Y; destruct (C y Y) as (x & X); apply in_pairs in X; exists x; apply X].
  assert (Sn : forall x, In x (rev next ++ seen) <-> exists k, k <= S i /\ dist k x).
  { intros x. rewrite in_app_iff, <- in_rev, Cur, (inv_seen _ _ _ _ _ H). split.
    - intros [K|(k & L & K)]; [exists (S i); auto|exists k; split; [lia|exact K]].
    - intros (k & L & K). destruct (Nat.eq_dec k (S i)) as [->|]; [now left|]. right. exists k. split; [lia|exact K]. }
  destruct next as [|n0 next].
  - cbn [is_nil]. constructor; cbn [rev app] in *; auto.
    + intros k x. rewrite (inv_layers _ _ _ _ _ H). split; [intros [L K]; split; [lia|exact K]|]. intros [L K]. split; [|exact K]. destruct (Nat.eq_dec k (S i)) as [->|]; [apply Cur in K; destruct K|lia].
    + apply (inv_concat _ _ _ _ _ H).
    + rewrite F. apply (inv_children _ _ _ _ _ H).
    + intros x y K. destruct (G x y K) as [K'|[_ []]]. apply (inv_edges _ _ _ _ _ H), K'.
    + apply (inv_full _ _ _ _ _ H).
  - cbn [is_nil]. remember (n0 :: next) as nx eqn:Enx. constructor; auto.
    + intros k x. destruct (Nat.lt_trichotomy k (S i)) as [L|[->|L]].
      * rewrite app_nth1 by lia. rewrite (inv_layers _ _ _ _ _ H). split; intros [? ?]; (split; [lia|assumption]).
      * rewrite app_nth2 by lia. rewrite Len', Nat.sub_diag. cbn [nth]. rewrite Cur. split; [auto|intros [_ K]; exact K].
      * rewrite app_nth2 by lia. rewrite Len'. destruct (k - S i) as [|[|j]] eqn:J; [lia| |]; cbn; split; try intros []; lia.
    + rewrite app_length, Len'. subst nx. cbn. lia.
    + rewrite concat_app. cbn [concat]. rewrite app_nil_r, <- Permutation_rev. rewrite (inv_concat _ _ _ _ _ H). apply Permutation_app_comm.
    + rewrite F, <- Permutation_rev. rewrite (inv_children _ _ _ _ _ H). rewrite <- Permutation_middle. reflexivity.
    + intros x y K. destruct (G x y K) as [K'|[K' Y]]; [apply (inv_edges _ _ _ _ _ H), K'|]. apply in_pairs in K'. destruct K' as [K1 K2]. split; [exact K2|]. exists i. split; [apply (inv_current _ _ _ _ _ H), K1|apply Cur, Y].
    + apply Forall_app. split; [apply (inv_full _ _ _ _ _ H)|]. constructor; [subst nx; discriminate|constructor].
Qed.

(** what is returned *)
Definition within (depth : option nat) (k : nat) : Prop := match depth with Some d => k <= d | None => True end.
Record outcome (depth : option nat) (layers : list (list text)) (graph : list (text * list text)) : Prop := {
  out_layers : forall k x, In x (nth k layers []) <-> within depth k /\ dist k x;
  out_nodup : NoDup (concat layers);
  out_full : Forall (fun l => l <> []) layers;
  out_keys : NoDup (akeys graph);
  out_children : Permutation (concat layers) (target :: children graph);
  out_edges : forall x y, edge graph x y -> In y (deps x) /\ exists k, dist k x /\ dist (S k) y }.
Lemma rounds_spec U depth fuel : (forall x, incl (deps x) U) -> forall i current seen graph layers, inv i current seen graph layers -> within depth i -> incl seen (target :: U) -> length U + 2 <= fuel + length seen ->
  exists ls g, rounds fuel deps depth i current seen graph layers = Some (ls, g) /\ outcome depth ls g.
Proof.
  intros HU. induction fuel as [|fuel IH]; intros i current seen graph layers H W I L.
  - exfalso. pose proof (NoDup_incl_length (inv_nodup _ _ _ _ _ H) I) as K. cbn in K. lia.
  - assert (Stop : forall ls g, (current = [] \/ exists d, depth = Some d /\ d <= i) -> ls = layers -> g = graph -> outcome depth ls g).
    { intros ls g St -> ->. constructor.
      - intros k x. rewrite (inv_layers _ _ _ _ _ H). split; intros [K X]; (split; [|exact X]).
        + destruct depth as [d|]; cbn in *; [lia|exact Logic.I].
        + destruct St as [->|(d & -> & K')]; [|cbn in *; lia]. destruct (le_lt_dec k i) as [|N]; [assumption|]. exfalso.
          apply (distance_empty deps target i) with (k := k) (b := x); [|lia|exact X]. intros b B. apply (inv_current _ _ _ _ _ H) in B. destruct B.
      - rewrite <- (inv_concat _ _ _ _ _ H). apply (inv_nodup _ _ _ _ _ H).
      - apply (inv_full _ _ _ _ _ H).
      - apply (inv_keys _ _ _ _ _ H).
      - rewrite <- (inv_concat _ _ _ _ _ H). apply (inv_children _ _ _ _ _ H).
      - apply (inv_edges _ _ _ _ _ H). }
    cbn [rounds]. destruct (is_nil current || match depth with Some d => Nat.leb d i | None => false end) eqn:E.
    + exists layers, graph. split; [reflexivity|]. apply Stop; auto. apply orb_true_iff in E. destruct E as [E|E]; [left; destruct current; [reflexivity|discriminate]|]. right. destruct depth as [d|]; [|discriminate]. exists d. split; [reflexivity|]. apply Nat.leb_le, E.
    + apply orb_false_iff in E. destruct E as [E1 E2]. destruct (inv_step _ _ _ _ _ H) as (next & g & E & J & K); [destruct current; discriminate|]. rewrite E.
      destruct next as [|n0 next].
      * cbn [is_nil rev app] in *. destruct fuel; cbn [rounds is_nil orb].
        -- exists layers, g. split; [reflexivity|]. constructor.
           ++ intros k x. rewrite (inv_layers _ _ _ _ _ J). split; intros [Q X]; (split; [|exact X]).
              ** destruct depth as [d|]; cbn; [|exact Logic.I]. apply Nat.leb_gt in E2. lia.
              ** destruct (le_lt_dec k (S i)) as [|N]; [assumption|]. exfalso. apply (distance_empty deps target (S i)) with (k := k) (b := x); [|lia|exact X]. intros b B. apply (inv_current _ _ _ _ _ J) in B. destruct B.
           ++ rewrite <- (inv_concat _ _ _ _ _ J). apply (inv_nodup _ _ _ _ _ J).
           ++ apply (inv_full _ _ _ _ _ J).
           ++ apply (inv_keys _ _ _ _ _ J).
           ++ rewrite <- (inv_concat _ _ _ _ _ J). apply (inv_children _ _ _ _ _ J).
           ++ apply (inv_edges _ _ _ _ _ J).
        -- exists layers, g. split; [reflexivity|]. constructor.
           ++ intros k x. rewrite (inv_layers _ _ _ _ _ J). split; intros [Q X]; (split; [|exact X]).
              ** destruct depth as [d|]; cbn; [|exact Logic.I]. apply Nat.leb_gt in E2. lia.
              ** destruct (le_lt_dec k (S i)) as [|N]; [assumption|]. exfalso. apply (distance_empty deps target (S i)) with (k := k) (b := x); [|lia|exact X]. intros b B. apply (inv_current _ _ _ _ _ J) in B. destruct B.
           ++ rewrite <- (inv_concat _ _ _ _ _ J). apply (inv_nodup _ _ _ _ _ J).
           ++ apply (inv_full _ _ _ _ _ J).
           ++ apply (inv_keys _ _ _ _ _ J).
           ++ rewrite <- (inv_concat _ _ _ _ _ J). apply (inv_children _ _ _ _ _ J).
           ++ apply (inv_edges _ _ _ _ _ J).
      * apply IH; [exact J| | |].
        -- destruct depth as [d|]; cbn; [|exact Logic.I]. apply Nat.leb_gt in E2. lia.
        -- intros y Y. apply in_app_iff in Y. destruct Y as [Y|Y]; [|apply I, Y]. apply in_rev in Y. destruct (K y Y) as (x & X). right. apply (HU x), X.
        -- rewrite app_length, rev_length. cbn [length]. lia.
Qed.
End Rounds.

(** ** The families that are picked *)
Lemma pick_from (f : list (option spack) -> bool) (l : list (text * list (option spack))) : forall acc : list text, NoDup acc ->
  let r := fold_left (fun acc (e : text * list (option spack)) => if mem_text (fst e) acc then acc else if f (snd e) then acc ++ [fst e] else acc) l acc in
  NoDup r /\ forall n, In n r <-> In n acc \/ exists vs, In (n, vs) l /\ f vs = true.
Proof.
  induction l as [|[m vs] l IH]; intros acc N; cbn [fold_left fst snd].
  - split; [exact N|]. intros n. split; [now left|intros [K|(? & [] & _)]; exact K].
  - destruct (mem_text m acc) eqn:M; [|destruct (f vs) eqn:F].
    + destruct (IH acc N) as [A B]. split; [exact A|]. intros n. rewrite B. apply mem_text_in in M. split.
      * intros [K|(w & I & K)]; [now left|right; exists w; split; [now right|exact K]].
      * intros [K|(w & [I|I] & K)]; [now left|injection I as -> ->; now left|right; exists w; auto].
    + destruct (IH (acc ++ [m])) as [A B].
      { apply NoDup_rev in N. rewrite <- (rev_involutive (acc ++ [m])), rev_app_distr. apply NoDup_rev. cbn. constructor; [|exact N]. rewrite <- in_rev, <- mem_text_in. congruence. }
      split; [exact A|]. intros n. rewrite B, in_app_iff. cbn [In]. split.
      * intros [[K|[<-|[]]]|(w & I & K)]; [now left|right; exists vs; split; [now left|exact F]|right; exists w; split; [now right|exact K]].
      * intros [K|(w & [I|I] & K)]; [tauto|injection I as -> ->; tauto|right; exists w; auto].
    + destruct (IH acc N) as [A B]. split; [exact A|]. intros n. rewrite B. split.
      * intros [K|(w & I & K)]; [now left|right; exists w; split; [now right|exact K]].
      * intros [K|(w & [I|I] & K)]; [now left|injection I as -> ->; congruence|right; exists w; auto].
Qed.
Lemma pick_in f paths n : In n (pick f paths) <-> exists fs vs, In fs paths /\ In (n, vs) fs /\ f vs = true.
Proof.
  destruct (pick_from f (concat paths) [] (NoDup_nil text)) as [_ B]. unfold pick. rewrite B. split.
  - intros [[]|(vs & I & K)]. apply in_concat in I. destruct I as (fs & A & C). exists fs, vs. auto.
  - intros (fs & vs & A & C & K). right. exists vs. split; [apply in_concat; exists fs; auto|exact K].
Qed.
Lemma pick_nodup f paths : NoDup (pick f paths).
Proof. apply (pick_from f (concat paths) [] (NoDup_nil text)). Qed.
Lemma first_version_has f paths n P : (forall p, f p = true <-> P p) -> In n (pick (fun vs => first_version vs f) paths) <-> first_has P paths n.
Proof.
  intros H. rewrite pick_in. unfold first_has. split.
  - intros (fs & vs & A & B & C). unfold first_version in C. destruct vs as [|[p|] vs]; [discriminate| |discriminate]. exists fs, p, vs. repeat split; auto. apply H, C.
  - intros (fs & p & vs & A & B & C). exists fs, (Some p :: vs). repeat split; auto. apply H, C.
Qed.
Lemma find_dependents_in build paths target n : In n (find_dependents build paths target) <-> first_has (mentions target build) paths n.
Proof.
  unfold find_dependents. rewrite sort_in. apply first_version_has. intros p. unfold mentions.
  assert (X : forall l, existsb (contains_text target) l = true <-> exists r a b, In r l /\ r = a ++ target ++ b).
  { intros l. rewrite existsb_exists. split.
    - intros (r & I & C). apply contains_text_spec in C. destruct C as (a & b & C). exists r, a, b. auto.
    - intros (r & a & b & I & C). exists r. split; [exact I|]. apply contains_text_spec. exists a, b. exact C. }
  rewrite orb_true_iff, andb_true_iff, !X. split.
  - intros [(r & a & b & I & E)|[-> (r & a & b & I & E)]]; exists r, a, b; auto.
  - intros (r & a & b & [I|[-> I]] & E); [left|right; split; [reflexivity|]]; exists r, a, b; auto.
Qed.
Lemma get_plugins_in target paths n : In n (get_plugins target paths) <-> first_has (fun p => In target (sk_plugin_for p)) paths n.
Proof. unfold get_plugins. rewrite sort_in. apply first_version_has. intros p. apply mem_text_in. Qed.
Lemma names_sorted (l : list text) : NoDup l -> StronglySorted (fun a b => text_cmp a b = Lt) (sort_by text_cmp l).
Proof.
  intros N. assert (C : chain text_cmp (sort_by text_cmp l)) by (apply (sort_chain _ _ TPO_text), Forall_forall; auto).
  assert (M : NoDup (sort_by text_cmp l)) by (eapply Permutation_NoDup; [symmetry; apply sort_perm|exact N]). revert C M. generalize (sort_by text_cmp l). clear.
  induction 1 as [|x l H C IH]; intros M; constructor; inversion M as [|? ? M1 M2]; subst; [apply IH, M2|]. apply Forall_forall. intros y Y. rewrite Forall_forall in H. specialize (H y Y).
  destruct (text_cmp x y) eqn:E; [|reflexivity|congruence]. apply text_cmp_eq in E. subst. contradiction.
Qed.
