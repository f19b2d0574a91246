(** Proofs about the payload cache: crashes, without any limit on the number of entries. *)
From Verif Require Import Base Base_lemmas Text_lemmas Maps Sorting Order_spec Graph_topo Base26_model Base26_spec
  Payload_model Payload_spec Payload_proofs Payload_seq.

Section Hash.
Variable hash : text -> text.
Section Truth.
Variable truth : text -> files.
Inductive building' (h : handle) (src : files) (sl : slot) : list action -> Prop :=
| b'_flag t : building' h src sl (add_acts h src t)
| b'_trunc t z : s_flag sl <> None -> building' h src sl (ATrunc :: AMeta h t z :: copy_acts src ++ [AUnflag])
| b'_meta t z : s_flag sl <> None -> building' h src sl (AMeta h t z :: copy_acts src ++ [AUnflag])
| b'_fill t z ws : s_flag sl <> None -> s_meta sl = Some (Meta h t z) -> forallb is_write ws = true -> holds_all src (s_load (fill ws sl)) ->
    building' h src sl (ws ++ [AUnflag]).
Definition touching' (sl : slot) (acts : list action) : Prop :=
  s_flag sl = None /\ exists h t z, holds_all (truth (hrepr h)) (s_load sl) /\ (acts = touch_acts h t z \/ acts = [AMeta h t z]).
Definition ok' (c : cache) (s : stage) : Prop :=
  match s with
  | Start o => honest truth o /\ removal o = false
  | Chosen h src => src = truth (hrepr h) /\ NoDup (akeys src)
  | Acting b i acts (CreatedNow, _) => acts = [] \/ exists h src, src = truth (hrepr h) /\ NoDup (akeys src) /\ building' h src (slot_of c b i) acts
  | Acting b i acts (Found, _) => acts = [] \/ touching' (slot_of c b i) acts
  | Acting b i acts _ => acts = []
  | _ => True
  end.
Lemma holds_mono f x src p : ~ In f (akeys src) -> forall l, p = Some l -> holds_all src p -> holds_all src (Some (aput f x l)).
Proof.
  intros Hf l -> (l' & [= <-] & H). exists (aput f x l). split; [reflexivity|]. intros g y Hg. rewrite aget_put_other; [apply H, Hg|].
  intros ->. apply Hf. apply (in_map fst) in Hg. exact Hg.
Qed.
Lemma fill_holds src : forall done sl, s_load sl <> None -> NoDup (akeys (done ++ src)) -> holds_all done (s_load sl) ->
  holds_all (done ++ src) (s_load (fill (flat_map (fun f => [AWrite (fst f) []; AWrite (fst f) (snd f)]) src) sl)).
Proof.
  induction src as [|[f x] src IH]; intros done sl Hl Hn H; cbn [flat_map app].
  - rewrite app_nil_r. exact H.
  - unfold fill. cbn [fold_left fst snd]. replace (done ++ (f, x) :: src) with ((done ++ [(f, x)]) ++ src) in * by (rewrite <- app_assoc; reflexivity).
    fold (fill (flat_map (fun f => [AWrite (fst f) []; AWrite (fst f) (snd f)]) src) (act (AWrite f x) (act (AWrite f []) sl))).
    apply IH; [cbn; discriminate|exact Hn|]. cbn [act s_load]. destruct (s_load sl) as [l|] eqn:El; [|congruence].
    assert (~ In f (akeys done)) as Hf.
    { unfold akeys in Hn. rewrite !map_app, <- app_assoc in Hn. apply nodup_app_split in Hn as (_ & _ & Hn). intros K. apply (Hn f K). left. reflexivity. }
    exists (aput f x (aput f [] l)). split; [reflexivity|]. intros g y Hg. apply in_app_or in Hg as [Hg|[[= <- <-]|[]]]; [|apply aget_put_same].
    assert (g <> f) as Hgf by (intros ->; apply Hf; apply (in_map fst) in Hg; exact Hg). rewrite !aget_put_other by exact Hgf.
    destruct H as (l' & [= <-] & H). apply H, Hg.
Qed.
Lemma copy_holds src sl : NoDup (akeys src) -> holds_all src (s_load (fill (copy_acts src) sl)).
Proof.
  intros Hn. unfold copy_acts, fill. cbn [fold_left]. apply (fill_holds src [] (act AMkdir sl)); [cbn; discriminate|exact Hn|].
  eexists. split; [reflexivity|]. intros f x [].
Qed.
Lemma building'_step h src sl a acts : src = truth (hrepr h) -> NoDup (akeys src) -> building' h src sl (a :: acts) ->
  (acts = [] \/ building' h src (act a sl) acts) /\
  (forall h' t z, s_meta (act a sl) = Some (Meta h' t z) -> s_flag (act a sl) = None -> holds_all (truth (hrepr h')) (s_load (act a sl))).
Proof.
  intros Hsrc Hn H. inversion H as [t Ea|t z Hf Ea|t z Hf Ea|t z ws Hf Hm Hw Hl Ea].
  - subst a acts. split; [right; apply b'_trunc; cbn; discriminate|]. cbn. intros; congruence.
  - subst a acts. split; [right; apply b'_meta; exact Hf|]. cbn. intros; discriminate.
  - subst a acts. split; [right; apply (b'_fill h src _ t z (copy_acts src)); cbn [act s_flag s_meta]; auto using copy_writes; apply copy_holds; auto|].
    cbn. intros; congruence.
  - destruct ws as [|w ws]; cbn [app] in Ea.
    + injection Ea as <- <-. split; [left; reflexivity|]. cbn [act s_meta s_flag s_load]. intros h' t' z' E _. rewrite Hm in E. injection E as <- <- <-.
      rewrite <- Hsrc. exact Hl.
    + injection Ea as <- <-. cbn [forallb] in Hw. apply andb_true_iff in Hw as [Hw1 Hw2]. destruct (write_keeps w sl Hw1) as [E1 E2].
      split; [right; apply (b'_fill h src _ t z ws); [rewrite E1; exact Hf|rewrite E2; exact Hm|exact Hw2|exact Hl]|]. rewrite E1, E2. intros; congruence.
Qed.
Lemma crash_step ord now c s : any_order ord -> tidy c -> covering truth c -> ok' c s ->
  covering truth (fst (pstep hash ord now c s)) /\ ok' (fst (pstep hash ord now c s)) (snd (pstep hash ord now c s)).
Proof.
  intros Ho Ht Hc Hok.
  assert (forall h, match look hash ord now h c with LFound i h' z => touching' (slot_of c (hpath hash h) i) (touch_acts h' now z) | _ => True end) as L.
  { intros h. pose proof (look_cases hash ord now h c Ho Ht) as L. destruct (look hash ord now h c) as [|i st|i h' z]; try exact I. destruct L as (t & L1 & _ & L3).
    split; [exact L3|]. exists h', now, z. split; [apply (Hc _ _ _ _ _ L1 L3)|left; reflexivity]. }
  destruct s as [[h|h src f|h]|h src|b i [|a todo] [st w]|x|]; cbn [pstep].
  - specialize (L h). destruct (look hash ord now h c); cbn [fst snd]; split; auto; try exact I. right. exact L.
  - specialize (L h). destruct (look hash ord now h c); cbn [fst snd]; split; auto; try exact I; [destruct f; [exact (proj1 Hok)|exact I]|]. right. exact L.
  - destruct Hok. discriminate.
  - destruct (next_inc ord _); cbn [fst snd]; (split; [exact Hc|]); [|exact I]. right. exists h, src. destruct Hok as [K1 K2]. split; [exact K1|]. split; [exact K2|]. apply b'_flag.
  - cbn [fst snd]. split; [exact Hc|exact I].
  - cbn [fst snd].
    assert ((forall h' t z, s_meta (act a (slot_of c b i)) = Some (Meta h' t z) -> s_flag (act a (slot_of c b i)) = None -> holds_all (truth (hrepr h')) (s_load (act a (slot_of c b i)))) /\
            ok' (act_on c b i a) (Acting b i todo (st, w))) as [K1 K2].
    { cbn [ok'] in *. rewrite act_same. destruct st; try discriminate.
      - destruct Hok as [Hok|(Hf & h & t & z & Hl & E)]; [discriminate|]. destruct E as [E|E]; unfold touch_acts in E; injection E as -> ->; cbn [act s_meta s_flag s_load].
        + split; [discriminate|]. right. split; [exact Hf|]. exists h, t, z. auto.
        + split; [|left; reflexivity]. intros h' t' z' [= <- <- <-] _. exact Hl.
      - destruct Hok as [Hok|(h & src & Hsrc & Hn & Hb)]; [discriminate|]. destruct (building'_step h src _ a todo Hsrc Hn Hb) as [S1 S2].
        split; [exact S2|]. destruct S1 as [->|S1]; [left; reflexivity|right; eauto]. }
    split; [|exact K2]. intros b' i' h t z. unfold payload. destruct (slot_dec b i b' i') as [[-> ->]|Hne]; [rewrite act_same; apply K1|rewrite act_other by exact Hne; apply Hc].
  - cbn [fst snd]. auto.
  - cbn [fst snd]. auto.
Qed.
Lemma crash_steps ord now k : any_order ord -> forall cs, tidy (fst cs) -> covering truth (fst cs) -> ok' (fst cs) (snd cs) ->
  covering truth (fst (steps hash ord now k cs)).
Proof.
  intros Ho. induction k as [|k IH]; intros [c s] Ht Hc Hok; cbn [steps fst snd] in *; [exact Hc|]. destruct (crash_step ord now c s Ho Ht Hc Hok) as [K1 K2].
  apply IH; [exact (steps_tidy hash ord now 1 (c, s) Ht)|exact K1|exact K2].
Qed.
Lemma crash_history ks : forall c, tidy c -> covering truth c ->
  (forall k, In k ks -> any_order (k_order k) /\ honest truth (k_op k) /\ removal (k_op k) = false) ->
  tidy (history hash ks c) /\ covering truth (history hash ks c).
Proof.
  induction ks as [|k ks IH]; intros c Ht Hc Hk; cbn [history]; [auto|]. destruct (Hk k (or_introl eq_refl)) as (Ho & Hh & Hm). apply IH.
  - apply steps_tidy, Ht.
  - apply crash_steps; auto. cbn [fst snd ok']. auto.
  - intros x Hx. apply Hk. right. exact Hx.
Qed.
Lemma crash_found ks c ord now h i : tidy c -> covering truth c ->
  (forall k, In k ks -> any_order (k_order k) /\ honest truth (k_op k) /\ removal (k_op k) = false) -> any_order ord ->
  finds (look hash ord now h (history hash ks c)) i -> holds_all (truth (hrepr h)) (payload (history hash ks c) (hpath hash h) i).
Proof.
  intros Ht Hc Hk Ho (h' & z & Hf). destruct (crash_history ks c Ht Hc Hk) as [K1 K2].
  pose proof (look_cases hash ord now h _ Ho K1) as L. rewrite Hf in L. destruct L as (t & L1 & L2 & L3). rewrite <- L2. apply (K2 _ _ _ t z L1 L3).
Qed.
End Truth.
(** interrupted before the metadata is written *)
Lemma early_crash ord now c h src f k ord' now' : any_order ord -> any_order ord' -> tidy c -> short_names c (hpath hash h) -> look hash ord now h c = LNone -> k <= 4 ->
  look hash ord' now' h (fst (steps hash ord now k (c, Start (OAdd h src f)))) = LNone.
Proof.
  intros Ho Ho' Ht Hs Hl Hk. set (cs := steps hash ord now k (c, Start (OAdd h src f))). pose proof (look_cases hash ord now h c Ho Ht) as L0. rewrite Hl in L0.
  assert (forall j h1 t z, s_meta (slot_of (fst cs) (hpath hash h) j) = Some (Meta h1 t z) -> s_meta (slot_of c (hpath hash h) j) = Some (Meta h1 t z)) as K.
  { unfold cs. destruct k as [|k]; [auto|]. cbn [steps fst snd pstep]. rewrite Hl. destruct f; [|rewrite steps_finished; auto]. destruct k as [|k]; [auto|].
    cbn [steps fst snd pstep]. destruct (next_inc ord (bucket_of c (hpath hash h))) as [i|] eqn:Ei.
    2:{ assert (forall m, steps hash ord now m (c, Panicked) = (c, Panicked)) as Hp by (intros m; induction m as [|m IH]; [reflexivity|exact IH]). rewrite Hp. auto. }
    pose proof (next_inc_fresh hash ord c _ i Ho Ht Hs Ei) as Hfr. intros j h1 t z. unfold add_acts.
    destruct (list_eq_dec ascii_dec j i) as [->|Hj].
    - destruct k as [|[|[|k]]]; [| | |lia]; cbn [steps fst snd pstep].
      + rewrite Hfr. discriminate.
      + rewrite act_same. cbn [act s_meta]. rewrite Hfr. discriminate.
      + rewrite act_same. discriminate.
    - destruct k as [|[|[|k]]]; [| | |lia]; cbn [steps fst snd pstep]; rewrite ?act_other by (right; exact Hj); auto. }
  assert (tidy (fst cs)) as Ht' by (apply steps_tidy; exact Ht). pose proof (look_cases hash ord' now' h (fst cs) Ho' Ht') as L.
  destruct (look hash ord' now' h (fst cs)) as [|j st|j h1 z]; [reflexivity| |]; exfalso.
  - destruct L as (t & fl & _ & _ & h1 & z & E & R). exact (L0 j h1 t z (K j h1 t z E) R).
  - destruct L as (t & E & R & _). exact (L0 j h1 t z (K j h1 t z E) R).
Qed.
(** a finished lookup keeps what it found *)
Lemma get_keeps ord now c h i h' z ord' now' : any_order ord -> any_order ord' -> tidy c -> unique_entries c -> look hash ord now h c = LFound i h' z ->
  let c' := fst (done hash ord now (OGet h) c) in
  snd (done hash ord now (OGet h) c) = Finished (Found, Some (hpath hash h, i)) /\
  look hash ord' now' h c' = LFound i h' z /\ (forall b j, payload c' b j = payload c b j) /\
  (forall b j, b <> hpath hash h \/ j <> i -> slot_of c' b j = slot_of c b j).
Proof.
  intros Ho Ho' Ht Hu Hl. pose proof (look_cases hash ord now h c Ho Ht) as L. rewrite Hl in L. destruct L as (t & L1 & L2 & L3).
  assert (done hash ord now (OGet h) c = (acts_on c (hpath hash h) i (touch_acts h' now z), Finished (Found, Some (hpath hash h, i)))) as Ed.
  { unfold done, enough. change 8 with (1 + 7). rewrite steps_add.
    assert (steps hash ord now 1 (c, Start (OGet h)) = (c, Acting (hpath hash h) i (touch_acts h' now z) (Found, Some (hpath hash h, i)))) as ->.
    { cbn [steps pstep fst snd]. rewrite Hl. reflexivity. }
    apply steps_acting. cbn. lia. }
  rewrite Ed. cbn [fst snd]. set (b := hpath hash h) in *. set (c' := acts_on c b i (touch_acts h' now z)).
  assert (slot_of c' b i = mkSlot None (Some (Meta h' now z)) (s_load (slot_of c b i))) as E0.
  { unfold c'. rewrite acts_same. unfold touch_acts, fill. cbn [app fold_left act s_flag s_load s_meta]. rewrite L3. reflexivity. }
  assert (forall b0 j, b0 <> b \/ j <> i -> slot_of c' b0 j = slot_of c b0 j) as E1 by (intros b0 j Hne; apply acts_other, Hne).
  assert (tidy c') as Ht'.
  { assert (tidy (fst (done hash ord now (OGet h) c))) as K by (apply steps_tidy; exact Ht). rewrite Ed in K. exact K. }
  split; [reflexivity|]. split; [|split; [|exact E1]].
  - pose proof (look_cases hash ord' now' h c' Ho' Ht') as L. fold b in L.
    assert (forall j h1 t1 z1, s_meta (slot_of c' b j) = Some (Meta h1 t1 z1) -> hrepr h1 = hrepr h -> j = i) as K.
    { intros j h1 t1 z1 E R. destruct (list_eq_dec ascii_dec j i) as [->|Hj]; [reflexivity|].
      rewrite (E1 b j (or_intror Hj)) in E. apply (Hu b j i h1 h' t1 z1 t z E L1). congruence. }
    destruct (look hash ord' now' h c') as [|j stl|j h1 z1].
    + exfalso. apply (L i h' now z); [rewrite E0; reflexivity|exact L2].
    + exfalso. destruct L as (t1 & f & F & _ & h1 & z1 & E & R). rewrite (K j h1 t1 z1 E R), E0 in F. discriminate.
    + destruct L as (t1 & E & R & _). pose proof (K j h1 t1 z1 E R) as ->. rewrite E0 in E. cbn [s_meta] in E. congruence.
  - intros b0 j. unfold payload. destruct (slot_dec b i b0 j) as [[-> ->]|Hne]; [rewrite E0; reflexivity|rewrite (E1 b0 j Hne); reflexivity].
Qed.
End Hash.
