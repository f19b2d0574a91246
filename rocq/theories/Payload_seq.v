(** Proofs about the payload cache: one operation after the other. *)
From Verif Require Import Base Base_lemmas Text_lemmas Maps Sorting Order_spec Graph_topo Base26_model Base26_spec Base26_proofs Base26_links
  Payload_model Payload_spec Payload_proofs.

Section Hash.
Variable hash : text -> text.
Section Truth.
Variable truth : text -> files.
(** ** a single process is a system of one *)
Definition guard (c : cache) (s : stage) : Prop :=
  match s with Start (OAdd h _ _) => short_names c (hpath hash h) | Chosen h _ => short_names c (hpath hash h) | _ => True end.
Lemma guard_step ord now c s : guard c s -> guard (fst (pstep hash ord now c s)) (snd (pstep hash ord now c s)).
Proof.
  destruct s as [[h|h src f|h]|h src|b i [|a todo] ans|x|]; cbn [pstep guard]; intros H; try exact I.
  - destruct (look hash ord now h c); exact I.
  - destruct (look hash ord now h c); try exact I. destruct f; [exact H|exact I].
  - destruct (look hash ord now h c); exact I.
  - destruct (next_inc ord _); exact I.
Qed.
Lemma single_step ord now c s : any_order ord -> Inv hash truth (c, [s]) -> guard c s ->
  Inv hash truth (fst (pstep hash ord now c s), [snd (pstep hash ord now c s)]).
Proof.
  intros Ho HI Hg. pose proof (inv_step hash truth ord now 0 (c, [s]) Ho HI) as K. unfold sys_step in K. cbn [nth_error fst snd set_nth] in K.
  destruct (pstep hash ord now c s) as [c' s']. cbn [fst snd]. apply K.
  - intros h src f _ [|m] x Hm Hx; [congruence|]. destruct m; discriminate.
  - intros h src [= ->]. exact Hg.
Qed.
Lemma single_steps ord now k : any_order ord -> forall cs, Inv hash truth (fst cs, [snd cs]) -> guard (fst cs) (snd cs) ->
  Inv hash truth (fst (steps hash ord now k cs), [snd (steps hash ord now k cs)]).
Proof.
  intros Ho. induction k as [|k IH]; intros cs HI Hg; cbn [steps]; [exact HI|]. apply IH; [apply single_step; assumption|apply guard_step, Hg].
Qed.
Lemma start_inv c o : complete truth c -> no_stray c -> tidy c -> honest truth o -> removal o = false -> Inv hash truth (c, [Start o]).
Proof.
  intros H1 H2 H3 Ho Hr. split; cbn [fst snd]; auto.
  - intros [|[|n]] s; try discriminate. intros [= <-]. split; assumption.
  - intros [|[|m]] [|[|n]] s s' b Hne Hm Hn; try discriminate; congruence.
Qed.
Lemma cut_sound c o ord now k : any_order ord -> complete truth c -> no_stray c -> tidy c -> honest truth o -> removal o = false ->
  match o with OAdd h _ _ => short_names c (hpath hash h) | _ => True end ->
  let c' := fst (steps hash ord now k (c, Start o)) in complete truth c' /\ no_stray c' /\ tidy c'.
Proof.
  intros Ho H1 H2 H3 Hh Hr Hs. destruct (single_steps ord now k Ho (c, Start o)) as [K1 K2 K3 _ _].
  - apply start_inv; assumption.
  - destruct o; exact Hs || exact I.
  - repeat split; assumption.
Qed.
Lemma history_sound ks : forall c, complete truth c -> no_stray c -> tidy c ->
  (forall k, In k ks -> any_order (k_order k) /\ honest truth (k_op k) /\ removal (k_op k) = false) -> roomy hash ks c ->
  complete truth (history hash ks c) /\ no_stray (history hash ks c) /\ tidy (history hash ks c).
Proof.
  induction ks as [|k ks IH]; intros c H1 H2 H3 Hk Hr; cbn [history]; [auto|]. cbn [roomy] in Hr. destruct Hr as [Hr1 Hr2].
  destruct (Hk k (or_introl eq_refl)) as (Ho & Hh & Hm).
  destruct (cut_sound c (k_op k) (k_order k) (k_now k) (k_steps k) Ho H1 H2 H3 Hh Hm Hr1) as (K1 & K2 & K3).
  apply IH; auto. intros x Hx. apply Hk. right. exact Hx.
Qed.
Lemma history_found ks c ord now h i : complete truth c -> no_stray c -> tidy c ->
  (forall k, In k ks -> any_order (k_order k) /\ honest truth (k_op k) /\ removal (k_op k) = false) -> roomy hash ks c -> any_order ord ->
  finds (look hash ord now h (history hash ks c)) i -> payload (history hash ks c) (hpath hash h) i = Some (truth (hrepr h)).
Proof.
  intros H1 H2 H3 Hk Hr Ho (h' & z & Hf). destruct (history_sound ks c H1 H2 H3 Hk Hr) as (K1 & K2 & K3).
  pose proof (look_cases hash ord now h _ Ho K3) as L. rewrite Hf in L. destruct L as (t & L1 & L2 & L3). rewrite <- L2. apply (K1 _ _ _ t z L1 L3).
Qed.
End Truth.

(** ** only the variant's own entry changes *)
Definition mine (h : handle) (sl : slot) : Prop := forall h1 t z, s_meta sl = Some (Meta h1 t z) -> hrepr h1 = hrepr h.
Definition my_act (h : handle) (a : action) : Prop := match a with AMeta h1 _ _ => hrepr h1 = hrepr h | _ => True end.
Definition at_slot (h : handle) (c0 c : cache) (i : text) : Prop :=
  (forall b' i', b' <> hpath hash h \/ i' <> i -> slot_of c b' i' = slot_of c0 b' i') /\
  mine h (slot_of c0 (hpath hash h) i) /\ mine h (slot_of c (hpath hash h) i).
Definition local (h : handle) (c0 : cache) (cs : cache * stage) : Prop :=
  match snd cs with
  | Start o => fst cs = c0 /\ op_handle o = h
  | Chosen h' _ => fst cs = c0 /\ h' = h
  | Acting b i acts _ => b = hpath hash h /\ at_slot h c0 (fst cs) i /\ Forall (my_act h) acts
  | Finished _ => exists i, at_slot h c0 (fst cs) i
  | Panicked => fst cs = c0
  end.
Lemma mine_act h sl a : mine h sl -> my_act h a -> mine h (act a sl).
Proof.
  intros H Ha h1 t z. destruct a; cbn [act s_meta]; try apply H; try discriminate. intros [= -> -> ->]. exact Ha.
Qed.
Lemma no_slot_mine h : mine h no_slot.
Proof. intros h1 t z. discriminate. Qed.
(** an increment nobody uses exists: take any longer text *)
Lemma unused_slot (c : cache) b : exists i, slot_of c b i = no_slot.
Proof.
  exists (flat_map (fun i => i) (akeys (bucket_of c b)) ++ ["x"%char]). unfold slot_of. destruct (aget _ (bucket_of c b)) eqn:E; [|reflexivity].
  exfalso. assert (exists v, aget (flat_map (fun i => i) (akeys (bucket_of c b)) ++ ["x"%char]) (bucket_of c b) = Some v) as X by eauto. apply (proj1 (aget_some _ _)) in X. clear E. rename X into E. revert E. generalize (akeys (bucket_of c b)). intros l Hin.
  assert (forall (l : list text) x, In x l -> length x <= length (flat_map (fun i => i) l)) as K.
  { clear. induction l as [|y l IH]; intros x []; cbn [flat_map]; rewrite app_length; [subst; lia|]. specialize (IH x H). lia. }
  specialize (K l _ Hin). rewrite app_length in K. cbn in K. lia.
Qed.
Lemma look_mine ord now h c : any_order ord -> tidy c ->
  match look hash ord now h c with LFound i h' _ => mine h (slot_of c (hpath hash h) i) /\ hrepr h' = hrepr h | _ => True end.
Proof.
  intros Ho Ht. pose proof (look_cases hash ord now h c Ho Ht) as L. destruct (look hash ord now h c); try exact I.
  destruct L as (t & L1 & L2 & _). split; [|exact L2]. intros h1 t1 z1 E. rewrite L1 in E. injection E as <- _ _. exact L2.
Qed.
Lemma quiet_local h c0 : exists i, at_slot h c0 c0 i.
Proof. destruct (unused_slot c0 (hpath hash h)) as [i Hi]. exists i. unfold at_slot. rewrite Hi. auto using no_slot_mine. Qed.
Lemma local_step ord now h c0 c s : any_order ord -> tidy c0 -> (forall src, s = Chosen h src -> short_names c0 (hpath hash h)) ->
  local h c0 (c, s) -> local h c0 (pstep hash ord now c s).
Proof.
  intros Ho Ht Hs. destruct s as [o|h' src|b i [|a todo] ans|x|]; cbn [local fst snd].
  - intros [-> Eh].
    assert (forall i acts ans, Forall (my_act h) acts -> match look hash ord now h c0 with LFound j _ _ => j = i | _ => False end ->
      local h c0 (c0, Acting (hpath hash h) i acts ans)) as K.
    { intros i acts ans Ha Hl. pose proof (look_mine ord now h c0 Ho Ht) as L. destruct (look hash ord now h c0) as [| |j h2 z]; try contradiction. subst j.
      cbn [local fst snd]. split; [reflexivity|]. split; [|exact Ha]. split; [reflexivity|]. split; exact (proj1 L). }
    pose proof (look_mine ord now h c0 Ho Ht) as L.
    destruct o as [h1|h1 src f|h1]; cbn [op_handle] in Eh; subst h1; cbn [pstep]; destruct (look hash ord now h c0) as [|i stl|i h2 z];
      try (cbn [local fst snd]; exact (quiet_local h c0)).
    + apply (K i); [|reflexivity]. repeat constructor. exact (proj2 L).
    + destruct f; cbn [local fst snd]; [auto|exact (quiet_local h c0)].
    + apply (K i); [|reflexivity]. repeat constructor. exact (proj2 L).
    + apply (K i); [|reflexivity]. unfold touch_acts. cbn [app]. repeat constructor. exact (proj2 L).
  - intros [-> ->]. cbn [pstep]. destruct (next_inc ord (bucket_of c0 (hpath hash h))) as [i|] eqn:Ei; cbn [local fst snd]; [|reflexivity].
    split; [reflexivity|]. assert (mine h (slot_of c0 (hpath hash h) i)) as Hm.
    { intros h1 t z E. rewrite (next_inc_fresh hash ord c0 _ i Ho Ht (Hs src eq_refl) Ei) in E. discriminate. }
    split; [split; [reflexivity|split; exact Hm]|]. unfold add_acts, copy_acts. repeat (constructor; [try exact I; reflexivity|]).
    apply Forall_app. split; [|repeat constructor].
    apply Forall_forall. intros x Hx. apply in_flat_map in Hx as (f & _ & [<-|[<-|[]]]); exact I.
  - intros (-> & Hi & _). cbn [pstep local fst snd]. exists i. exact Hi.
  - intros (-> & (H1 & H2 & H3) & Ha). cbn [pstep local fst snd]. inversion Ha as [|? ? Ha1 Ha2]; subst. split; [reflexivity|]. split; [|exact Ha2].
    split; [intros b' i' Hne; rewrite act_other by exact Hne; apply H1, Hne|]. split; [exact H2|]. rewrite act_same. apply mine_act; assumption.
  - cbn [pstep]. intros H. exact H.
  - cbn [pstep]. intros H. exact H.
Qed.
Lemma local_steps ord now h c0 k : any_order ord -> tidy c0 -> forall cs, 
  (forall o, snd cs = Start o -> forall src f, o = OAdd h src f -> short_names c0 (hpath hash h)) ->
  (forall src, snd cs = Chosen h src -> short_names c0 (hpath hash h)) ->
  local h c0 cs -> local h c0 (steps hash ord now k cs).
Proof.
  intros Ho Ht. induction k as [|k IH]; intros [c s] H1 H2 Hl; cbn [steps]; [exact Hl|]. apply IH.
  - cbn [fst snd] in *. intros o E. exfalso. destruct s as [[h1|h1 src f|h1]|h1 src|b i [|a todo] ans|x|]; cbn [pstep snd] in E.
    + destruct (look hash ord now h1 c); discriminate.
    + destruct (look hash ord now h1 c); try discriminate. destruct f; discriminate.
    + destruct (look hash ord now h1 c); discriminate.
    + destruct (next_inc ord _); discriminate.
    + discriminate.
    + discriminate.
    + discriminate.
    + discriminate.
  - cbn [fst snd] in *. intros src E. destruct s as [[h1|h1 src1 f|h1]|h1 src1|b i [|a todo] ans|x|]; cbn [pstep snd] in E.
    + destruct (look hash ord now h1 c); discriminate.
    + cbn [local snd op_handle] in Hl. destruct Hl as [_ ->]. apply (H1 _ eq_refl src1 f eq_refl).
    + destruct (look hash ord now h1 c); discriminate.
    + destruct (next_inc ord _); discriminate.
    + discriminate.
    + discriminate.
    + discriminate.
    + discriminate.
  - cbn [fst snd]. apply local_step; auto.
Qed.
Lemma op_local ord now k c o : any_order ord -> tidy c -> short_op hash c o -> local (op_handle o) c (steps hash ord now k (c, Start o)).
Proof.
  intros Ho Ht Hs. apply local_steps; auto; cbn [snd]; try discriminate.
  - intros o' [= <-] src f E. rewrite E in Hs. exact Hs.
  - cbn [local fst snd]. auto.
Qed.
Lemma local_at h c0 cs : local h c0 cs -> exists i, at_slot h c0 (fst cs) i.
Proof.
  destruct cs as [c s]. destruct s; cbn [local fst snd].
  - intros [-> _]. apply quiet_local.
  - intros [-> _]. apply quiet_local.
  - intros (_ & H & _). eauto.
  - auto.
  - intros ->. apply quiet_local.
Qed.
(** lookups of other variants are not affected *)
Definition reads (c : cache) (b i : text) (r : text) : Prop := exists h t z, s_meta (slot_of c b i) = Some (Meta h t z) /\ hrepr h = r.
Lemma at_slot_reads h c0 c i b j r : at_slot h c0 c i -> r <> hrepr h ->
  (reads c b j r -> slot_of c b j = slot_of c0 b j) /\ (reads c0 b j r -> slot_of c b j = slot_of c0 b j).
Proof.
  intros (H1 & H2 & H3) Hr. destruct (slot_dec (hpath hash h) i b j) as [[-> ->]|Hne].
  - split; intros (h1 & t & z & E & E'); exfalso; apply Hr; rewrite <- E'; [apply (H3 h1 t z E)|apply (H2 h1 t z E)].
  - rewrite (H1 b j Hne). auto.
Qed.
Lemma look_same ord ord' now h c c' : any_order ord -> any_order ord' -> tidy c -> tidy c' ->
  (forall i j, reads c (hpath hash h) i (hrepr h) -> reads c (hpath hash h) j (hrepr h) -> i = j) ->
  (forall i, reads c (hpath hash h) i (hrepr h) -> slot_of c' (hpath hash h) i = slot_of c (hpath hash h) i) ->
  (forall i, reads c' (hpath hash h) i (hrepr h) -> slot_of c' (hpath hash h) i = slot_of c (hpath hash h) i) ->
  look hash ord' now h c' = look hash ord now h c.
Proof.
  intros Ho Ho' Ht Ht' Hu H1 H2.
  assert (forall i h1 t z, s_meta (slot_of c (hpath hash h) i) = Some (Meta h1 t z) -> hrepr h1 = hrepr h -> reads c (hpath hash h) i (hrepr h)) as R
    by (intros i h1 t z ? ?; exists h1, t, z; auto).
  pose proof (look_cases hash ord now h c Ho Ht) as L. pose proof (look_cases hash ord' now h c' Ho' Ht') as L'.
  assert (forall i, reads c' (hpath hash h) i (hrepr h) -> reads c (hpath hash h) i (hrepr h)) as R'.
  { intros i Hi. pose proof (H2 i Hi) as E. destruct Hi as (h1 & t & z & E1 & E2). rewrite E in E1. exists h1, t, z. auto. }
  destruct (look hash ord now h c) as [|i stl|i h1 z1]; destruct (look hash ord' now h c') as [|i' stl'|i' h2 z2]; try reflexivity.
  - exfalso. destruct L' as (t & f & F1 & F2 & h2 & z & M1 & M2). destruct (R' i') as (h3 & t3 & z3 & E1 & E2); [exists h2, t, z; auto|]. exact (L i' h3 t3 z3 E1 E2).
  - exfalso. destruct L' as (t & M1 & M2 & _). destruct (R' i') as (h3 & t3 & z3 & E1 & E2); [exists h2, t, z2; auto|]. exact (L i' h3 t3 z3 E1 E2).
  - exfalso. destruct L as (t & f & F1 & F2 & h2 & z & M1 & M2). rewrite <- (H1 i (R i h2 t z M1 M2)) in M1. exact (L' i h2 t z M1 M2).
  - destruct L as (t & f & F1 & F2 & h2 & z & M1 & M2). destruct L' as (t' & f' & F1' & F2' & h2' & z' & M1' & M2').
    assert (i' = i) as -> by (apply Hu; [apply R'; exists h2', t', z'; auto|apply (R i h2 t z M1 M2)]).
    rewrite (H1 i (R i h2 t z M1 M2)) in F1'. congruence.
  - exfalso. destruct L as (t & f & F1 & F2 & h3 & z & M1 & M2). destruct L' as (t' & M1' & M2' & F').
    assert (i' = i) as -> by (apply Hu; [apply R'; exists h2, t', z2; auto|apply (R i h3 t z M1 M2)]).
    rewrite (H1 i (R i h3 t z M1 M2)) in F'. congruence.
  - exfalso. destruct L as (t & M1 & M2 & _). rewrite <- (H1 i (R i h1 t z1 M1 M2)) in M1. exact (L' i h1 t z1 M1 M2).
  - exfalso. destruct L' as (t' & f' & F1' & F2' & h3 & z' & M1' & M2'). destruct L as (t & M1 & M2 & F).
    assert (i' = i) as -> by (apply Hu; [apply R'; exists h3, t', z'; auto|apply (R i h1 t z1 M1 M2)]).
    rewrite (H1 i (R i h1 t z1 M1 M2)) in F1'. congruence.
  - destruct L as (t & M1 & M2 & _). destruct L' as (t' & M1' & M2' & F').
    assert (i' = i) as -> by (apply Hu; [apply R'; exists h2, t', z2; auto|apply (R i h1 t z1 M1 M2)]).
    rewrite (H1 i (R i h1 t z1 M1 M2)) in M1'. congruence.
Qed.
Lemma unique_reads c b r i j : unique_entries c -> reads c b i r -> reads c b j r -> i = j.
Proof. intros Hu (h & t & z & E & R) (h' & t' & z' & E' & R'). apply (Hu b i j h h' t z t' z' E E'). congruence. Qed.
Lemma steps_tidy ord now k : forall cs, tidy (fst cs) -> tidy (fst (steps hash ord now k cs)).
Proof.
  induction k as [|k IH]; intros [c s] Ht; cbn [steps]; [exact Ht|]. apply IH. cbn [fst snd] in *.
  destruct s as [[h1|h1 src1 f|h1]|h1 src1|b i [|a todo] ans|x|]; cbn [pstep fst]; try exact Ht.
  - destruct (look hash ord now h1 c); exact Ht.
  - destruct (look hash ord now h1 c); exact Ht.
  - destruct (look hash ord now h1 c); exact Ht.
  - destruct (next_inc ord _); exact Ht.
  - apply act_tidy, Ht.
Qed.
Lemma others_kept ord now k c o ord1 ord2 now' h : any_order ord -> any_order ord1 -> any_order ord2 -> tidy c -> unique_entries c -> short_op hash c o ->
  hrepr h <> hrepr (op_handle o) ->
  let c' := fst (steps hash ord now k (c, Start o)) in
  look hash ord2 now' h c' = look hash ord1 now' h c /\
  forall i, finds (look hash ord1 now' h c) i -> payload c' (hpath hash h) i = payload c (hpath hash h) i.
Proof.
  intros Ho Ho1 Ho2 Ht Hu Hs Hne c'. destruct (local_at _ _ _ (op_local ord now k c o Ho Ht Hs)) as [i Hi]. fold c' in Hi. split.
  - apply look_same; auto; [apply steps_tidy, Ht|intros x y; apply (unique_reads c _ _ x y Hu)| |].
    + intros x Hx. apply (proj2 (at_slot_reads _ _ _ _ (hpath hash h) x _ Hi Hne)), Hx.
    + intros x Hx. apply (proj1 (at_slot_reads _ _ _ _ (hpath hash h) x _ Hi Hne)), Hx.
  - intros x (h1 & z & E). pose proof (look_cases hash ord1 now' h c Ho1 Ht) as L. rewrite E in L. destruct L as (t & L1 & L2 & _).
    unfold payload. rewrite (proj2 (at_slot_reads _ _ _ _ (hpath hash h) x _ Hi Hne)); [reflexivity|]. exists h1, t, z. auto.
Qed.
(** entries stay unique: an addition happens only when its variant is not there *)
Definition one_more (h : handle) (c0 : cache) (cs : cache * stage) : Prop :=
  match snd cs with
  | Start _ => True
  | Chosen _ _ => forall i, ~ reads c0 (hpath hash h) i (hrepr h)
  | Acting _ i _ _ => forall j, reads c0 (hpath hash h) j (hrepr h) -> j = i
  | Finished _ => exists i, at_slot h c0 (fst cs) i /\ forall j, reads c0 (hpath hash h) j (hrepr h) -> j = i
  | Panicked => True
  end.
Lemma quiet_one_more h c0 : unique_entries c0 -> exists i, at_slot h c0 c0 i /\ forall j, reads c0 (hpath hash h) j (hrepr h) -> j = i.
Proof.
  intros Hu. destruct (find (matches h) (bucket_of c0 (hpath hash h))) as [[i s]|] eqn:E.
  - destruct (existsb (fun e => match s_meta (slot_of c0 (hpath hash h) (fst e)) with Some (Meta h1 _ _) => text_eqb (hrepr h1) (hrepr h) | _ => false end)
      (bucket_of c0 (hpath hash h))) eqn:X.
    + apply existsb_exists in X as ([j sj] & Hj & Hm). cbn [fst] in Hm. destruct (s_meta (slot_of c0 (hpath hash h) j)) as [[|h1 t z]|] eqn:M; try discriminate.
      apply text_eqb_eq in Hm. exists j. split.
      * split; [reflexivity|]. assert (mine h (slot_of c0 (hpath hash h) j)) as Q; [|split; exact Q]. intros h2 t2 z2 E2. rewrite M in E2. injection E2 as <- _ _. exact Hm.
      * intros x Hx. apply (unique_reads c0 _ _ x j Hu Hx). exists h1, t, z. auto.
    + destruct (quiet_local h c0) as [k Hk]. exists k. split; [exact Hk|]. intros j (h1 & t & z & M & R). exfalso.
      assert (s_meta (slot_of c0 (hpath hash h) j) <> None) as Hn by congruence. apply in_slot in Hn.
      assert (existsb (fun e => match s_meta (slot_of c0 (hpath hash h) (fst e)) with Some (Meta h1 _ _) => text_eqb (hrepr h1) (hrepr h) | _ => false end)
        (bucket_of c0 (hpath hash h)) = true) as K; [|congruence]. apply existsb_exists. eexists. split; [exact Hn|]. cbn [fst]. rewrite M, R. apply text_eqb_refl.
  - destruct (quiet_local h c0) as [k Hk]. exists k. split; [exact Hk|]. intros j (h1 & t & z & M & R). exfalso.
    assert (s_meta (slot_of c0 (hpath hash h) j) <> None) as Hn by congruence. apply in_slot in Hn. pose proof (find_none _ _ E _ Hn) as K.
    assert (matches h (j, slot_of c0 (hpath hash h) j) = true) as K'; [|congruence]. apply matches_spec. exists h1, t, z. auto.
Qed.
Lemma one_more_step ord now h c0 c s : any_order ord -> tidy c0 -> unique_entries c0 -> local h c0 (c, s) -> one_more h c0 (c, s) ->
  one_more h c0 (pstep hash ord now c s).
Proof.
  intros Ho Ht Hu Hl H. destruct s as [o|h' src|b i [|a todo] ans|x|]; cbn [local fst snd] in Hl.
  - destruct Hl as [-> Eh]. pose proof (look_cases hash ord now h c0 Ho Ht) as L.
    assert (forall i h2 t z, s_meta (slot_of c0 (hpath hash h) i) = Some (Meta h2 t z) -> hrepr h2 = hrepr h -> forall j, reads c0 (hpath hash h) j (hrepr h) -> j = i) as K.
    { intros i h2 t z E R j Hj. apply (unique_reads c0 _ _ j i Hu Hj). exists h2, t, z. auto. }
    destruct o as [h1|h1 src f|h1]; cbn [op_handle] in Eh; subst h1; cbn [pstep]; destruct (look hash ord now h c0) as [|i stl|i h2 z]; cbn [one_more fst snd];
      try (exact (quiet_one_more h c0 Hu)).
    + destruct L as (t & L1 & L2 & _). exact (K i h2 t z L1 L2).
    + destruct f; [|exact (quiet_one_more h c0 Hu)]. intros i (h2 & t & z & E & R). exact (L i h2 t z E R).
    + destruct L as (t & L1 & L2 & _). exact (K i h2 t z L1 L2).
    + destruct L as (t & L1 & L2 & _). exact (K i h2 t z L1 L2).
  - cbn [one_more snd] in H. cbn [pstep]. destruct (next_inc ord _); cbn [one_more fst snd]; [|exact I]. intros j Hj. destruct (H j Hj).
  - destruct Hl as (_ & Hi & _). cbn [pstep one_more fst snd] in *. exists i. auto.
  - cbn [pstep one_more snd] in *. exact H.
  - exact H.
  - exact I.
Qed.
Lemma unique_kept ord now k c o : any_order ord -> tidy c -> unique_entries c -> short_op hash c o -> unique_entries (fst (steps hash ord now k (c, Start o))).
Proof.
  intros Ho Ht Hu Hs.
  assert (forall k, local (op_handle o) c (steps hash ord now k (c, Start o)) /\ one_more (op_handle o) c (steps hash ord now k (c, Start o))) as H.
  { intros j. split; [apply op_local; assumption|]. 
    assert (forall j cs, (forall m, local (op_handle o) c (steps hash ord now m cs)) -> one_more (op_handle o) c cs -> one_more (op_handle o) c (steps hash ord now j cs)) as K.
    { clear j. induction j as [|j IH]; intros [c1 s1] Hm H1; cbn [steps]; [exact H1|]. apply IH; [intros m; apply (Hm (S m))|]. cbn [fst snd].
      apply one_more_step; auto. apply (Hm 0). }
    apply K; [intros m; apply op_local; assumption|exact I]. }
  destruct (H k) as [Hl Hm]. destruct (steps hash ord now k (c, Start o)) as [c' s]. cbn [fst]. set (h := op_handle o) in *.
  assert (exists i, at_slot h c c' i /\ forall j, reads c (hpath hash h) j (hrepr h) -> j = i) as (i & (A1 & A2 & A3) & Hj).
  { destruct s as [o1|h1 src|b i acts ans|x|]; cbn [local one_more fst snd] in *.
    - destruct Hl as [-> _]. apply quiet_one_more, Hu.
    - destruct Hl as [-> _]. apply quiet_one_more, Hu.
    - destruct Hl as (_ & Hi & _). eauto.
    - exact Hm.
    - subst c'. apply quiet_one_more, Hu. }
  assert (forall b j h1 t z, s_meta (slot_of c' b j) = Some (Meta h1 t z) -> (b = hpath hash h /\ j = i /\ hrepr h1 = hrepr h) \/ s_meta (slot_of c b j) = Some (Meta h1 t z)) as K.
  { intros b j h1 t z E. destruct (slot_dec (hpath hash h) i b j) as [[-> ->]|Hne]; [left; split; [reflexivity|]; split; [reflexivity|]; apply (A3 h1 t z E)|].
    right. rewrite <- (A1 b j Hne). exact E. }
  intros b x y h1 h2 t z t' z' E E' R.
  destruct (K b x h1 t z E) as [(-> & -> & R1)|E1]; destruct (K _ y h2 t' z' E') as [(Eb & Ey & R2)|E2].
  - congruence.
  - symmetry. apply Hj. exists h2, t', z'. split; [exact E2|congruence].
  - subst b y. apply Hj. exists h1, t, z. split; [exact E1|congruence].
  - exact (Hu b x y h1 h2 t z t' z' E1 E2 R).
Qed.

(** ** operations that finish *)
Lemma steps_add ord now j : forall k cs, steps hash ord now (j + k) cs = steps hash ord now k (steps hash ord now j cs).
Proof. induction j as [|j IH]; intros k cs; cbn [Nat.add steps]; [reflexivity|apply IH]. Qed.
Lemma steps_finished ord now k c a : steps hash ord now k (c, Finished a) = (c, Finished a).
Proof. induction k as [|k IH]; [reflexivity|exact IH]. Qed.
Definition acts_on (c : cache) (b i : text) (acts : list action) : cache := fold_left (fun c a => act_on c b i a) acts c.
Lemma steps_acting ord now b i a : forall acts k c, length acts < k -> steps hash ord now k (c, Acting b i acts a) = (acts_on c b i acts, Finished a).
Proof.
  induction acts as [|x acts IH]; intros k c Hk; (destruct k as [|k]; [cbn in Hk; lia|]); cbn [steps pstep fst snd].
  - apply steps_finished.
  - cbn in Hk. apply (IH k (act_on c b i x)). lia.
Qed.
Lemma acts_same b i acts : forall c, slot_of (acts_on c b i acts) b i = fill acts (slot_of c b i).
Proof.
  induction acts as [|x acts IH]; intros c; [reflexivity|]. unfold acts_on, fill. cbn [fold_left].
  fold (acts_on (act_on c b i x) b i acts). rewrite IH, act_same. reflexivity.
Qed.
Lemma acts_other b i acts b' i' : b' <> b \/ i' <> i -> forall c, slot_of (acts_on c b i acts) b' i' = slot_of c b' i'.
Proof.
  intros Hne. induction acts as [|x acts IH]; intros c; [reflexivity|]. unfold acts_on. cbn [fold_left].
  fold (acts_on (act_on c b i x) b i acts). rewrite IH, act_other by exact Hne. reflexivity.
Qed.
Lemma copy_length src : length (copy_acts src) = 1 + 2 * length src.
Proof. unfold copy_acts. cbn [length]. f_equal. induction src as [|f src IH]; [reflexivity|]. cbn [flat_map length app]. rewrite IH. lia. Qed.
Lemma fill_app xs ys s : fill (xs ++ ys) s = fill ys (fill xs s).
Proof. unfold fill. apply fold_left_app. Qed.
Lemma fill_writes ws : forall s, forallb is_write ws = true -> s_flag (fill ws s) = s_flag s /\ s_meta (fill ws s) = s_meta s.
Proof.
  induction ws as [|w ws IH]; intros s H; [split; reflexivity|]. cbn [forallb] in H. apply andb_true_iff in H as [H1 H2].
  unfold fill. cbn [fold_left]. fold (fill ws (act w s)). destruct (IH (act w s) H2) as [-> ->]. apply write_keeps, H1.
Qed.
Lemma fill_add h src t s : s_load s = None -> NoDup (akeys src) -> fill (add_acts h src t) s = mkSlot None (Some (Meta h t (size_of src))) (Some src).
Proof.
  intros Hl Hn. unfold add_acts. change (fill (AFlag t :: ATrunc :: AMeta h t (size_of src) :: copy_acts src ++ [AUnflag]) s)
    with (fill (copy_acts src ++ [AUnflag]) (mkSlot (Some t) (Some (Meta h t (size_of src))) (s_load s))).
  rewrite fill_app. set (s1 := mkSlot (Some t) (Some (Meta h t (size_of src))) (s_load s)).
  destruct (fill_writes (copy_acts src) s1 (copy_writes src)) as [_ Em]. pose proof (fill_copy src s1 Hl Hn) as El.
  change (fill [AUnflag] (fill (copy_acts src) s1)) with (act AUnflag (fill (copy_acts src) s1)). unfold act. rewrite Em, El. reflexivity.
Qed.
Lemma add_done ord now c h src : any_order ord -> tidy c -> no_stray c -> short_names c (hpath hash h) -> NoDup (akeys src) -> look hash ord now h c = LNone ->
  exists i, s_meta (slot_of c (hpath hash h) i) = None /\
    done hash ord now (OAdd h src true) c = (acts_on c (hpath hash h) i (add_acts h src now), Finished (CreatedNow, Some (hpath hash h, i))) /\
    slot_of (fst (done hash ord now (OAdd h src true) c)) (hpath hash h) i = mkSlot None (Some (Meta h now (size_of src))) (Some src).
Proof.
  intros Ho Ht Hst Hs Hn Hl. destruct (next_inc_some ord c _ Ho Ht Hs) as [i Hi]. exists i. pose proof (next_inc_fresh hash ord c _ i Ho Ht Hs Hi) as Hf.
  split; [exact Hf|]. unfold done, enough. change (10 + 2 * length src) with (2 + (8 + 2 * length src)). rewrite steps_add.
  assert (steps hash ord now 2 (c, Start (OAdd h src true)) = (c, Acting (hpath hash h) i (add_acts h src now) (CreatedNow, Some (hpath hash h, i)))) as ->.
  { cbn [steps pstep fst snd]. rewrite Hl. cbn [pstep fst snd]. rewrite Hi. reflexivity. }
  assert (length (add_acts h src now) = 5 + 2 * length src) as El.
  { unfold add_acts. cbn [length]. rewrite app_length, copy_length. cbn [length]. lia. }
  rewrite steps_acting by (rewrite El; lia). split; [reflexivity|]. cbn [fst]. rewrite acts_same, fill_add; [reflexivity|apply Hst, Hf|exact Hn].
Qed.
Lemma add_findable ord now c h src ord' now' : any_order ord -> any_order ord' -> tidy c -> no_stray c -> short_names c (hpath hash h) -> NoDup (akeys src) ->
  look hash ord now h c = LNone ->
  exists i, done hash ord now (OAdd h src true) c = (fst (done hash ord now (OAdd h src true) c), Finished (CreatedNow, Some (hpath hash h, i))) /\
    finds (look hash ord' now' h (fst (done hash ord now (OAdd h src true) c))) i /\
    payload (fst (done hash ord now (OAdd h src true) c)) (hpath hash h) i = Some src.
Proof.
  intros Ho Ho' Ht Hst Hs Hn Hl. destruct (add_done ord now c h src Ho Ht Hst Hs Hn Hl) as (i & Hf & Ed & Es). exists i.
  split; [rewrite Ed at 1; rewrite Ed; reflexivity|]. split; [|unfold payload; rewrite Es; reflexivity].
  assert (tidy (fst (done hash ord now (OAdd h src true) c))) as Ht' by (apply steps_tidy, Ht).
  pose proof (look_cases hash ord' now' h _ Ho' Ht') as L. pose proof (look_cases hash ord now h c Ho Ht) as L0. rewrite Hl in L0.
  assert (forall j h1 t z, s_meta (slot_of (fst (done hash ord now (OAdd h src true) c)) (hpath hash h) j) = Some (Meta h1 t z) -> hrepr h1 = hrepr h -> j = i) as K.
  { intros j h1 t z E R. destruct (list_eq_dec ascii_dec j i) as [->|Hj]; [reflexivity|]. exfalso. rewrite Ed in E. cbn [fst] in E.
    rewrite acts_other in E by (right; exact Hj). exact (L0 j h1 t z E R). }
  destruct (look hash ord' now' h _) as [|j stl|j h1 z].
  - exfalso. apply (L i h now (size_of src)); [rewrite Es; reflexivity|reflexivity].
  - exfalso. destruct L as (t & f & F1 & _ & h1 & z & E & R). rewrite (K j h1 t z E R), Es in F1. discriminate.
  - destruct L as (t & E & R & _). rewrite (K j h1 t z E R). exists h1, z. reflexivity.
Qed.
(** a busy entry stays busy: nothing is changed by any operation on its variant *)
Lemma busy_stuck ord now c o i st k : look hash ord now (op_handle o) c = LBusy i st -> fst (steps hash ord now k (c, Start o)) = c.
Proof.
  intros H. destruct k as [|k]; [reflexivity|]. cbn [steps fst snd].
  destruct o as [h|h src f|h]; cbn [op_handle] in H; cbn [pstep]; rewrite H; rewrite steps_finished; reflexivity.
Qed.
(** ** removal *)
Lemma remove_done ord now c h i h' z : any_order ord -> tidy c -> unique_entries c -> look hash ord now h c = LFound i h' z ->
  let c' := fst (done hash ord now (ORemove h) c) in
  snd (done hash ord now (ORemove h) c) = Finished (Removed, Some (hpath hash h, i)) /\
  slot_of c' (hpath hash h) i = no_slot /\ (forall b j, b <> hpath hash h \/ j <> i -> slot_of c' b j = slot_of c b j) /\
  (forall ord' now', any_order ord' -> look hash ord' now' h c' = LNone) /\
  ca_trash c' = ca_trash c ++ match payload c (hpath hash h) i with Some l => [l] | None => [] end.
Proof.
  intros Ho Ht Hu Hl. pose proof (look_cases hash ord now h c Ho Ht) as L. rewrite Hl in L. destruct L as (t & L1 & L2 & L3).
  assert (done hash ord now (ORemove h) c = (acts_on c (hpath hash h) i (touch_acts h' now z ++ [AMove; ADrop]), Finished (Removed, Some (hpath hash h, i)))) as Ed.
  { unfold done, enough. change 8 with (1 + 7). rewrite steps_add.
    assert (steps hash ord now 1 (c, Start (ORemove h)) = (c, Acting (hpath hash h) i (touch_acts h' now z ++ [AMove; ADrop]) (Removed, Some (hpath hash h, i)))) as ->.
    { cbn [steps pstep fst snd]. rewrite Hl. reflexivity. }
    apply steps_acting. cbn. lia. }
  rewrite Ed. cbn [fst snd]. set (b := hpath hash h) in *. set (c' := acts_on c b i (touch_acts h' now z ++ [AMove; ADrop])).
  assert (slot_of c' b i = no_slot) as E0.
  { unfold c'. rewrite acts_same. unfold touch_acts, fill. cbn [app fold_left act s_flag s_load s_meta]. rewrite L3. reflexivity. }
  assert (forall b0 j, b0 <> b \/ j <> i -> slot_of c' b0 j = slot_of c b0 j) as E1 by (intros b0 j Hne; apply acts_other, Hne).
  split; [reflexivity|]. split; [exact E0|]. split; [exact E1|]. split.
  - intros ord' now' Ho'. assert (tidy c') as Ht'.
    { assert (tidy (fst (done hash ord now (ORemove h) c))) as K by (apply steps_tidy; exact Ht). rewrite Ed in K. exact K. }
    pose proof (look_cases hash ord' now' h c' Ho' Ht') as L. fold b in L.
    assert (forall j h1 t1 z1, s_meta (slot_of c' b j) = Some (Meta h1 t1 z1) -> hrepr h1 = hrepr h -> False) as K.
    { intros j h1 t1 z1 E R. destruct (list_eq_dec ascii_dec j i) as [->|Hj]; [rewrite E0 in E; discriminate|].
      rewrite (E1 b j (or_intror Hj)) in E. apply Hj. apply (Hu b j i h1 h' t1 z1 t z E L1). congruence. }
    destruct (look hash ord' now' h c') as [|j stl|j h1 z1]; [reflexivity| |]; exfalso.
    + destruct L as (t1 & f & _ & _ & h1 & z1 & E & R). exact (K j h1 t1 z1 E R).
    + destruct L as (t1 & E & R & _). exact (K j h1 t1 z1 E R).
  - unfold c', acts_on, touch_acts. cbn [app fold_left]. set (c2 := act_on (act_on c b i ATrunc) b i (AMeta h' now z)).
    assert (slot_of c2 b i = mkSlot None (Some (Meta h' now z)) (payload c b i)) as E2.
    { unfold c2. rewrite !act_same. unfold act, payload. cbn [s_flag s_meta s_load]. rewrite L3. reflexivity. }
    assert (ca_trash c2 = ca_trash c) as E3 by reflexivity. set (c3 := act_on c2 b i AMove).
    assert (ca_trash (act_on c3 b i ADrop) = ca_trash c3) as -> by reflexivity. unfold c3, act_on. rewrite E2. cbn [s_load].
    destruct (payload c b i); cbn [ca_trash]; [rewrite <- E3; reflexivity|]. rewrite app_nil_r. exact E3.
Qed.
End Hash.
