(** Proofs about the cycle search and reachability. *)
From Verif Require Import Base Base_lemmas Text_lemmas Version_model Range_model Requirement_model Maps Sorting Package_model Dfs
  Order_spec Graph_model Graph_spec Graph_proofs Graph_topo.

(** ** the coloured search follows the plain depth-first search *)
Section Refine.
Context (g : text -> list text).
Definition links (p : list (text * text)) (path : list text) : Prop := forall l1 a b l2, path = l1 ++ a :: b :: l2 -> aget b p = Some a.
Record follows (c : list (text * color)) (p : list (text * text)) (vis path : list text) : Prop := {
  fo_vis : forall x, In x vis <-> aget x c <> None;
  fo_gray : forall x, In x path <-> aget x c = Some Gray;
  fo_nodup : NoDup path;
  fo_links : links p path
}.
Lemma links_prefix p l r : links p (l ++ r) -> links p l.
Proof. intros H l1 a b l2 ->. apply (H l1 a b (l2 ++ r)). rewrite <- app_assoc. reflexivity. Qed.
Lemma from_first_app d l r : In d l -> from_first d (l ++ r) = from_first d l ++ r.
Proof.
  induction l as [|x l IH]; intros H; [destruct H|]. cbn [app from_first]. destruct (text_eqb_spec x d) as [->|E]; [reflexivity|].
  apply IH. destruct H; [congruence|assumption].
Qed.
Lemma from_first_not d l r : ~ In d l -> from_first d (l ++ d :: r) = d :: r.
Proof.
  induction l as [|x l IH]; intros H; cbn [app from_first]; [rewrite text_eqb_refl; reflexivity|].
  destruct (text_eqb_spec x d) as [->|E]; [destruct H; left; reflexivity|]. apply IH. intros K. apply H. right. exact K.
Qed.
Lemma rebuild_spec p d : forall l k fuel acc, links p (l ++ [k]) -> In d (l ++ [k]) -> NoDup (l ++ [k]) -> length (l ++ [k]) <= fuel ->
  rebuild fuel p k d acc = Some (from_first d (l ++ [k]) ++ acc).
Proof.
  induction l as [|y l IH] using rev_ind; intros k fuel acc Hl Hd Hn Hf.
  - destruct fuel as [|f]; [cbn in Hf; lia|]. destruct Hd as [->|[]]. cbn [rebuild app from_first]. rewrite text_eqb_refl. reflexivity.
  - rewrite !app_length in Hf. cbn [length] in Hf. destruct fuel as [|f]; [lia|]. cbn [rebuild]. destruct (text_eqb_spec k d) as [->|E].
    + rewrite from_first_not; [reflexivity|]. apply NoDup_remove_2 in Hn. rewrite app_nil_r in Hn. exact Hn.
    + rewrite (Hl l y k []) by (rewrite <- app_assoc; reflexivity).
      assert (In d (l ++ [y])) as Hd' by (rewrite in_app_iff in Hd; destruct Hd as [?|[?|[]]]; [assumption|congruence]).
      rewrite (IH y f (k :: acc)).
      * rewrite (from_first_app d (l ++ [y]) [k] Hd'), <- app_assoc. reflexivity.
      * apply (links_prefix _ _ _ Hl).
      * exact Hd'.
      * apply NoDup_remove_1 in Hn. rewrite app_nil_r in Hn. exact Hn.
      * rewrite app_length. cbn [length]. lia.
Qed.
Definition cloop fuel k := fix go (ds : list text) (c : list (text * color)) (p : list (text * text)) : cyc_result :=
         match ds with
         | [] => CNone (aput k Black c) p
         | d :: ds' =>
             match color_of d c with
             | Some Gray => match rebuild (length c) p k d [] with Some l => CFound l | None => CPanic end
             | None => match dfs_cycle g fuel d c (aput d k p) with
                       | CNone c' p' => go ds' c' p'
                       | r => r
                       end
             | Some Black => go ds' c p
             end
         end.
Lemma dfs_cycle_unfold fuel k c p : dfs_cycle g (S fuel) k c p = cloop fuel k (g k) (aput k Gray c) p.
Proof. reflexivity. Qed.
Lemma cloop_cons fuel k d ds c p : cloop fuel k (d :: ds) c p =
  match color_of d c with
  | Some Gray => match rebuild (length c) p k d [] with Some l => CFound l | None => CPanic end
  | None => match dfs_cycle g fuel d c (aput d k p) with CNone c' p' => cloop fuel k ds c' p' | r => r end
  | Some Black => cloop fuel k ds c p
  end.
Proof. reflexivity. Qed.
(** related results *)
Definition agrees (path : list text) (r : cyc_result) (f : found) : Prop :=
  match r, f with
  | CFound l, Cycle c => exists d m, l = d :: m /\ c = l ++ [d]
  | CNone c p, Fin v => follows c p v path
  | COut, Out => True
  | _, _ => False
  end.
Lemma follows_push c p vis path k : follows c p vis path -> ~ In k vis -> links p (path ++ [k]) ->
  follows (aput k Gray c) p (k :: vis) (path ++ [k]).
Proof.
  intros F Hk Hl.
  assert (~ In k path) as Hp.
  { intros H. apply Hk. apply (fo_vis _ _ _ _ F). apply (fo_gray _ _ _ _ F) in H. congruence. }
  constructor.
  - intros x. cbn [In]. destruct (text_eqb_spec x k) as [->|E].
    + rewrite aget_put_same. split; [congruence|auto].
    + rewrite aget_put_other by exact E. rewrite (fo_vis _ _ _ _ F x). split; [intros [?|?]; congruence|auto].
  - intros x. rewrite in_app_iff. cbn [In]. destruct (text_eqb_spec x k) as [->|E].
    + rewrite aget_put_same. tauto.
    + rewrite aget_put_other by exact E. rewrite (fo_gray _ _ _ _ F x). split; [intros [?|[?|[]]]; congruence|auto].
  - apply nodup_app_intro; [apply (fo_nodup _ _ _ _ F)|repeat constructor; intros []|]. intros x Hx [<-|[]]. contradiction.
  - exact Hl.
Qed.
Lemma follows_pop c p vis path k : follows c p vis (path ++ [k]) -> In k vis -> follows (aput k Black c) p vis path.
Proof.
  intros F Hk. assert (NoDup path /\ ~ In k path) as [Hn Hp].
  { pose proof (fo_nodup _ _ _ _ F) as N. apply nodup_app_split in N as (N1 & _ & N3). split; [exact N1|]. intros H. apply (N3 k H). left. reflexivity. }
  constructor.
  - intros x. destruct (text_eqb_spec x k) as [->|E].
    + rewrite aget_put_same. split; [congruence|auto].
    + rewrite aget_put_other by exact E. apply (fo_vis _ _ _ _ F).
  - intros x. destruct (text_eqb_spec x k) as [->|E].
    + rewrite aget_put_same. split; [contradiction|congruence].
    + rewrite aget_put_other by exact E. rewrite <- (fo_gray _ _ _ _ F x), in_app_iff. cbn [In]. split; [auto|]. intros [?|[?|[]]]; [assumption|congruence].
  - exact Hn.
  - apply (links_prefix _ _ _ (fo_links _ _ _ _ F)).
Qed.
Lemma links_put p path d k : links p path -> ~ In d path -> links (aput d k p) path.
Proof.
  intros H Hd l1 a b l2 E. destruct (text_eqb_spec b d) as [->|Eb].
  - destruct Hd. rewrite E, in_app_iff. cbn [In]. auto.
  - rewrite aget_put_other by exact Eb. apply (H l1 a b l2 E).
Qed.
Lemma links_snoc p path k d : links p (path ++ [k]) -> aget d p = Some k -> links p ((path ++ [k]) ++ [d]).
Proof.
  intros H Hd l1 a b l2 E. destruct (list_eq_dec (list_eq_dec ascii_dec) l2 []) as [->|Hl2].
  - assert ((l1 ++ [a]) ++ [b] = (path ++ [k]) ++ [d]) as E' by (rewrite E, <- app_assoc; reflexivity).
    apply app_inj_tail in E' as [E' ->]. apply app_inj_tail in E' as [_ ->]. exact Hd.
  - destruct (exists_last Hl2) as (l2' & y & ->). rewrite !app_comm_cons, app_assoc in E. apply app_inj_tail in E as [E _].
    apply (H l1 a b l2' E).
Qed.
Lemma follows_length c p vis path : follows c p vis path -> length path <= length c.
Proof.
  intros F. rewrite <- (map_length fst c). apply NoDup_incl_length; [apply (fo_nodup _ _ _ _ F)|].
  intros x Hx. apply (fo_gray _ _ _ _ F) in Hx. apply aget_in in Hx. apply in_map_iff. exists (x, Gray). auto.
Qed.
Lemma cycle_refines : forall fuel k c p vis path, follows c p vis path -> ~ In k vis -> links p (path ++ [k]) ->
  agrees path (dfs_cycle g fuel k c p) (dfs g fuel k vis path).
Proof.
  induction fuel as [|fuel IH]; intros k c p vis path F Hk Hl; [exact I|]. rewrite dfs_cycle_unfold, dfs_unfold.
  assert (forall ds c p vis, follows c p vis (path ++ [k]) -> In k vis -> agrees path (cloop fuel k ds c p) (dloop g fuel (path ++ [k]) ds vis)) as K.
  { clear c p vis F Hk Hl. induction ds as [|d ds IHds]; intros c p vis F Hk.
    - exact (follows_pop c p vis path k F Hk).
    - rewrite cloop_cons, dloop_cons. unfold color_of. pose proof (fo_vis _ _ _ _ F d) as Hv. pose proof (fo_gray _ _ _ _ F d) as Hg.
      destruct (aget d c) as [[|]|] eqn:Ec.
      + assert (mem_text d vis = true) as -> by (apply mem_text_In, Hv; discriminate). cbn [negb].
        assert (In d (path ++ [k])) as Hd by (apply Hg; reflexivity). apply mem_text_In in Hd as Hm. rewrite Hm.
        rewrite (rebuild_spec p d path k (length c) [] (fo_links _ _ _ _ F) Hd (fo_nodup _ _ _ _ F) (follows_length _ _ _ _ F)).
        rewrite app_nil_r. destruct (from_first_split d (path ++ [k]) Hd) as [m Em]. cbn [agrees]. exists d, m. rewrite Em. auto.
      + assert (mem_text d vis = true) as -> by (apply mem_text_In, Hv; discriminate). cbn [negb].
        assert (mem_text d (path ++ [k]) = false) as -> by (apply mem_text_false; intros H; apply Hg in H; discriminate).
        apply IHds; assumption.
      + assert (~ In d vis) as Hd by (intros H; apply Hv in H; congruence). apply mem_text_false in Hd as Hm. rewrite Hm. cbn [negb].
        assert (~ In d (path ++ [k])) as Hdp by (intros H; apply Hg in H; discriminate).
        assert (follows c (aput d k p) vis (path ++ [k])) as F'.
        { constructor; [apply (fo_vis _ _ _ _ F)|apply (fo_gray _ _ _ _ F)|apply (fo_nodup _ _ _ _ F)|apply links_put; [apply (fo_links _ _ _ _ F)|exact Hdp]]. }
        pose proof (IH d c (aput d k p) vis (path ++ [k]) F' Hd) as R.
        specialize (R (links_snoc _ _ _ _ (fo_links _ _ _ _ F') (aget_put_same _ _ _))).
        destruct (dfs_cycle g fuel d c (aput d k p)) as [l|c' p'| |], (dfs g fuel d vis (path ++ [k])) as [cy|v|] eqn:Ed; cbn [agrees] in R; try contradiction.
        * exact R.
        * apply IHds; [exact R|]. apply (dfs_mono g _ _ _ _ _ Ed), Hk.
        * exact I. }
  apply K; [|left; reflexivity]. apply follows_push; assumption.
Qed.
Lemma find_refines fuel ks : forall c p vis, follows c p vis [] -> agrees [] (find_from g fuel ks c p) (search g fuel ks vis).
Proof.
  induction ks as [|k ks IH]; intros c p vis F; [exact F|]. cbn [find_from search]. unfold color_of.
  pose proof (fo_vis _ _ _ _ F k) as Hv. destruct (aget k c) as [col|] eqn:Ec.
  - assert (mem_text k vis = true) as -> by (apply mem_text_In, Hv; discriminate). cbn [negb]. apply IH, F.
  - assert (~ In k vis) as Hk by (intros H; apply Hv in H; congruence). apply mem_text_false in Hk as Hm. rewrite Hm. cbn [negb].
    pose proof (cycle_refines fuel k c p vis [] F Hk) as R.
    assert (links p ([] ++ [k])) as L by (intros [|? [|]] a b l2 E; discriminate). specialize (R L).
    destruct (dfs_cycle g fuel k c p) as [l|c' p'| |], (dfs g fuel k vis []) as [cy|v|]; cbn [agrees] in R; try contradiction; [exact R| |exact I].
    apply IH, R.
Qed.
Lemma follows_start : follows [] [] [] [].
Proof.
  constructor; [intros x; cbn [aget In]; split; [intros []|congruence]|intros x; cbn [aget In]; split; [intros []|discriminate]|constructor|].
  intros [|] a b l2 E; discriminate.
Qed.
End Refine.

(** ** the graph search *)
Section Search.
Context (o : gorder) (g : graph).
Hypothesis Ho : any_gorder o.
Lemma names_closed x y : In y (deps_of o g x) -> In y (all_names g).
Proof.
  intros H. apply (deps_of_edge o g Ho) in H as (n & E & H). unfold all_names. rewrite in_app_iff. right. apply in_concat. exists (n_deps n).
  split; [|exact H]. apply in_map_iff. exists (x, n). split; [reflexivity|]. apply aget_in, E.
Qed.
Lemma path_leads x y : path_to (deps_of o g) x y <-> leads g x y.
Proof.
  split; intros H.
  - induction H as [y H|y z _ IH H]; [apply leads_edge|apply (leads_step _ _ y _ IH)]; apply (deps_of_edge o g Ho), H.
  - induction H as [y H|y z _ IH H]; [apply path_edge|apply (path_step _ _ y _ IH)]; apply (deps_of_edge o g Ho), H.
Qed.
Lemma walk_edge l : walk (deps_of o g) l -> forall l1 a b l2, l = l1 ++ a :: b :: l2 -> edge g a b.
Proof.
  induction l as [|x l IH]; intros H l1 a b l2 E; [destruct l1; discriminate|]. destruct l1 as [|y l1].
  - injection E as -> ->. destruct H as [H _]. apply (deps_of_edge o g Ho), H.
  - injection E as -> ->. apply (IH) with (l1 := l1) (l2 := l2); [|reflexivity]. destruct (l1 ++ a :: b :: l2) eqn:E2; [exact I|]. apply H.
Qed.
Lemma find_cycle_found l : find_cycle o g = CFound l -> closed_walk g l.
Proof.
  intros H. unfold find_cycle in H. pose proof (find_refines (deps_of o g) (length (all_names g)) (go_keys o (akeys (g_nodes g))) [] [] [] (follows_start)) as R.
  rewrite H in R. destruct (search (deps_of o g) (length (all_names g)) (go_keys o (akeys (g_nodes g))) []) as [c|v|] eqn:Es; cbn [agrees] in R; try contradiction.
  destruct R as (d & m & -> & ->). apply search_cycle_sound in Es as (x & m' & E & W). injection E as <- E.
  pose proof (walk_edge _ W) as He.
  split; [discriminate|]. split.
  - intros l1 a b l2 El. apply (He l1 a b (l2 ++ [d])). rewrite El. rewrite <- app_assoc. reflexivity.
  - intros a m2 [= <- <-]. assert (d :: m <> []) as Hne by discriminate. destruct (exists_last Hne) as (l1 & y & El). rewrite El, last_last.
    apply (He l1 y d []). rewrite El, <- app_assoc. reflexivity.
Qed.
Lemma find_cycle_none c p : find_cycle o g = CNone c p -> loop_free g.
Proof.
  intros H. unfold find_cycle in H. pose proof (find_refines (deps_of o g) (length (all_names g)) (go_keys o (akeys (g_nodes g))) [] [] [] (follows_start)) as R.
  rewrite H in R. destruct (search (deps_of o g) (length (all_names g)) (go_keys o (akeys (g_nodes g))) []) as [l|v|] eqn:Es; cbn [agrees] in R; try contradiction.
  intros k Hk. apply path_leads in Hk. revert k Hk. apply (search_acyclic (deps_of o g) (length (all_names g)) (go_keys o (akeys (g_nodes g))) v); [|exact Es].
  intros x Hx. destruct Ho as [Hok _]. apply (Permutation_in _ (Permutation_sym (Hok (akeys (g_nodes g))))). apply is_node_get. unfold deps_of in Hx.
  destruct (aget x (g_nodes g)) as [n|] eqn:E; [eauto|congruence].
Qed.
Lemma find_cycle_outcome : (exists l, find_cycle o g = CFound l) \/ (exists c p, find_cycle o g = CNone c p).
Proof.
  unfold find_cycle. pose proof (find_refines (deps_of o g) (length (all_names g)) (go_keys o (akeys (g_nodes g))) [] [] [] (follows_start)) as R.
  destruct (find_from (deps_of o g) (length (all_names g)) (go_keys o (akeys (g_nodes g))) [] []) as [l|c p| |]; [eauto|eauto|destruct (search _ _ _ _); contradiction|].
  destruct (search (deps_of o g) (length (all_names g)) (go_keys o (akeys (g_nodes g))) []) eqn:Es; try contradiction. exfalso. revert Es.
  apply (search_fuel (deps_of o g) (all_names g)); [intros x y _ Hy; eapply names_closed, Hy| |lia].
  intros x Hx. destruct Ho as [Hok _]. apply (Permutation_in _ (Hok _)) in Hx. unfold all_names. apply in_app_iff. auto.
Qed.
Lemma closed_walk_leads l : closed_walk g l -> exists k, leads g k k.
Proof.
  intros (Hne & He & Hl). destruct l as [|k m]; [congruence|]. exists k. specialize (Hl k m eq_refl).
  assert (forall l1 y l2, m = l1 ++ y :: l2 -> leads g k y) as K.
  { induction l1 as [|z l1 IH] using rev_ind; intros y l2 E.
    - apply leads_edge, (He [] k y l2). rewrite E. reflexivity.
    - apply (leads_step _ _ z).
      + apply (IH z (y :: l2)). rewrite E, <- app_assoc. reflexivity.
      + apply (He (k :: l1) z y l2). rewrite E, <- app_assoc. reflexivity. }
  destruct m as [|m0 m]; [apply leads_edge, Hl|]. assert (m0 :: m <> []) as Hne2 by discriminate. destruct (exists_last Hne2) as (l1 & y & E).
  rewrite E in Hl. rewrite app_comm_cons, last_last in Hl. apply (leads_step _ _ y); [|exact Hl]. apply (K l1 y [] E).
Qed.
Lemma find_cycle_exact : (exists l, find_cycle o g = CFound l) <-> exists k, leads g k k.
Proof.
  split.
  - intros [l E]. apply closed_walk_leads with l, find_cycle_found, E.
  - intros [k Hk]. destruct find_cycle_outcome as [H|(c & p & E)]; [exact H|]. destruct (find_cycle_none c p E k Hk).
Qed.
End Search.

(** ** reachability *)
Section Reachable.
Context (g : text -> list text) (u : list text) (Hu : forall x y, In y (g x) -> In y u).
Lemma dfs_reach_spec : forall fuel k vis, unseen u vis < fuel -> NoDup vis ->
  let r := dfs_reach g fuel k vis in
  NoDup r /\ (forall x, In x vis -> In x r) /\ (forall d, In d (g k) -> In d r) /\
  (forall x, In x r -> In x vis \/ path_to g k x) /\
  (forall x d, In x r -> In d (g x) -> In d r \/ In x vis).
Proof.
  induction fuel as [|fuel IH]; intros k vis Hf Hn; [lia|]. cbn [dfs_reach].
  assert (forall ds vis0, unseen u vis0 <= fuel -> NoDup vis0 -> (forall d, In d ds -> In d (g k)) ->
    let r := fold_left (fun vis d => if mem_text d vis then vis else dfs_reach g fuel d (d :: vis)) ds vis0 in
    NoDup r /\ (forall x, In x vis0 -> In x r) /\ (forall d, In d ds -> In d r) /\ (forall x, In x r -> In x vis0 \/ path_to g k x) /\
    (forall x d, In x r -> In d (g x) -> In d r \/ In x vis0)) as K.
  { induction ds as [|d ds IHds]; intros vis0 H0 N0 Hds; cbn [fold_left].
    - split; [exact N0|]. split; [auto|]. split; [intros d []|]. split; auto.
    - assert (forall x, In x ds -> In x (g k)) as Hds' by (intros x Hx; apply Hds; right; exact Hx).
      assert (In d (g k)) as Hd by (apply Hds; left; reflexivity).
      destruct (mem_text d vis0) eqn:Em.
      + destruct (IHds vis0 H0 N0 Hds') as (A & B & C & D & E). split; [exact A|]. split; [exact B|]. split; [|split; assumption].
        intros x [<-|Hx]; [apply B, mem_text_In, Em|apply C, Hx].
      + apply mem_text_false in Em. pose proof (unseen_cons u vis0 d (Hu k d Hd) Em) as Hlt.
        destruct (IH d (d :: vis0)) as (A1 & B1 & C1 & D1 & E1); [lia|constructor; assumption|].
        set (r1 := dfs_reach g fuel d (d :: vis0)) in *.
        assert (unseen u r1 <= fuel) as Hr1.
        { pose proof (unseen_mono u (d :: vis0) r1 B1). lia. }
        destruct (IHds r1 Hr1 A1 Hds') as (A & B & C & D & E).
        set (r := fold_left _ ds r1) in *.
        split; [exact A|]. split; [intros x Hx; apply B, B1; right; exact Hx|]. split; [|split].
        * intros x [<-|Hx]; [apply B, B1; left; reflexivity|apply C, Hx].
        * intros x Hx. destruct (D x Hx) as [Hx1|Hx1]; [|auto]. destruct (D1 x Hx1) as [[<-|Hx2]|Hx2]; [right; apply path_edge, Hd|auto|].
          right. clear - Hd Hx2. induction Hx2 as [y Hy|y z _ IH Hz].
          -- apply (path_step g k d y); [apply path_edge, Hd|exact Hy].
          -- apply (path_step g k y z IH Hz).
        * intros x y Hx Hy. destruct (E x y Hx Hy) as [?|Hx1]; [auto|]. destruct (E1 x y Hx1 Hy) as [?|[<-|?]]; auto. }
  cbv zeta in *. destruct (K (g k) vis) as (A & B & C & D & E); [lia|exact Hn|auto|]. split; [exact A|]. split; [exact B|]. split; [exact C|]. split; assumption.
Qed.
Lemma dfs_reach_exact k x : In x (dfs_reach g (S (length u)) k []) <-> path_to g k x.
Proof.
  destruct (dfs_reach_spec (S (length u)) k []) as (_ & _ & C & D & E); [pose proof (unseen_length u []); lia|constructor|]. split.
  - intros H. destruct (D x H) as [[]|?]; assumption.
  - intros H. induction H as [y H|y z _ IH H]; [apply C, H|]. destruct (E y z IH H) as [?|[]]. assumption.
Qed.
Lemma dfs_reach_nodup k : NoDup (dfs_reach g (S (length u)) k []).
Proof. apply dfs_reach_spec; [pose proof (unseen_length u []); lia|constructor]. Qed.
End Reachable.

Lemma accessible_exact o g k x : any_gorder o -> In x (accessible o g k) <-> x = k \/ leads g k x.
Proof.
  intros Ho. unfold accessible. rewrite sort_in, set_add_in. 
  rewrite (dfs_reach_exact (deps_of o g) (all_names g) (names_closed o g Ho) k x). rewrite (path_leads o g Ho). tauto.
Qed.
Lemma accessible_nodup o g k : any_gorder o -> NoDup (accessible o g k).
Proof.
  intros Ho. unfold accessible. apply (Permutation_NoDup (Permutation_sym (sort_perm _ _))).
  apply set_add_nodup, (dfs_reach_nodup (deps_of o g) (all_names g) (names_closed o g Ho)).
Qed.
