(** Proofs about the payload cache: runs of several processes. *)
From Verif Require Import Base Base_lemmas Text_lemmas Maps Sorting Order_spec Graph_topo Base26_model Base26_spec Base26_proofs Base26_links
  Payload_model Payload_spec.

(** ** slots *)
Lemma slot_set_same c b i s : slot_of (set_slot c b i s) b i = s.
Proof. unfold slot_of, set_slot, bucket_of at 1. cbn [ca_buckets]. rewrite !aget_put_same. reflexivity. Qed.
Lemma slot_set_other c b i s b' i' : b' <> b \/ i' <> i -> slot_of (set_slot c b i s) b' i' = slot_of c b' i'.
Proof.
  intros H. unfold slot_of, set_slot, bucket_of at 1. cbn [ca_buckets]. destruct (list_eq_dec ascii_dec b' b) as [->|Hb].
  - rewrite aget_put_same, aget_put_other by (destruct H; congruence). reflexivity.
  - rewrite aget_put_other by exact Hb. reflexivity.
Qed.
Lemma bucket_set_same c b i s : bucket_of (set_slot c b i s) b = aput i s (bucket_of c b).
Proof. unfold bucket_of at 1, set_slot. cbn [ca_buckets]. rewrite aget_put_same. reflexivity. Qed.
Lemma bucket_set_other c b i s b' : b' <> b -> bucket_of (set_slot c b i s) b' = bucket_of c b'.
Proof. intros H. unfold bucket_of at 1, set_slot. cbn [ca_buckets]. rewrite aget_put_other by exact H. reflexivity. Qed.
Lemma act_buckets c b i a : ca_buckets (act_on c b i a) = ca_buckets (set_slot c b i (act a (slot_of c b i))).
Proof. unfold act_on. destruct a; try reflexivity. destruct (s_load (slot_of c b i)); reflexivity. Qed.
Lemma slot_buckets c c' b i : ca_buckets c = ca_buckets c' -> slot_of c b i = slot_of c' b i.
Proof. intros H. unfold slot_of, bucket_of. rewrite H. reflexivity. Qed.
Lemma act_same c b i a : slot_of (act_on c b i a) b i = act a (slot_of c b i).
Proof. rewrite (slot_buckets _ _ b i (act_buckets c b i a)). apply slot_set_same. Qed.
Lemma act_other c b i a b' i' : b' <> b \/ i' <> i -> slot_of (act_on c b i a) b' i' = slot_of c b' i'.
Proof. intros H. rewrite (slot_buckets _ _ b' i' (act_buckets c b i a)). apply slot_set_other, H. Qed.
Lemma slot_dec (b i b' i' : text) : (b' = b /\ i' = i) \/ (b' <> b \/ i' <> i).
Proof. destruct (list_eq_dec ascii_dec b' b), (list_eq_dec ascii_dec i' i); tauto. Qed.
Lemma act_tidy c b i a : tidy c -> tidy (act_on c b i a).
Proof.
  intros H b'. assert (bucket_of (act_on c b i a) b' = bucket_of (set_slot c b i (act a (slot_of c b i))) b') as ->
    by (unfold bucket_of; rewrite act_buckets; reflexivity).
  destruct (list_eq_dec ascii_dec b' b) as [->|Hb]; [rewrite bucket_set_same; apply nodup_put, H|rewrite bucket_set_other by exact Hb; apply H].
Qed.
Lemma slot_in c b i s : tidy c -> In (i, s) (bucket_of c b) -> slot_of c b i = s.
Proof. intros Ht H. unfold slot_of. rewrite (aget_nodup i s _ (Ht b) H). reflexivity. Qed.
Lemma in_slot c b i : s_meta (slot_of c b i) <> None -> In (i, slot_of c b i) (bucket_of c b).
Proof.
  unfold slot_of. destruct (aget i (bucket_of c b)) as [s|] eqn:E; [intros _; apply aget_in, E|intros H; destruct (H eq_refl)].
Qed.

(** ** lookup *)
Section Hash.
Variable hash : text -> text.
Lemma matches_spec h e : matches h e = true <-> exists h' t z, s_meta (snd e) = Some (Meta h' t z) /\ hrepr h' = hrepr h.
Proof.
  unfold matches. destruct (s_meta (snd e)) as [[|h' t z]|].
  - split; [discriminate|]. intros (? & ? & ? & ? & _). discriminate.
  - split; [intros H; apply text_eqb_eq in H; eauto 6|]. intros (h2 & t2 & z2 & [= <- <- <-] & E). rewrite E. apply text_eqb_refl.
  - split; [discriminate|]. intros (? & ? & ? & ? & _). discriminate.
Qed.
Lemma look_cases ord now h c : any_order ord -> tidy c ->
  match look hash ord now h c with
  | LNone => forall i h' t z, s_meta (slot_of c (hpath hash h) i) = Some (Meta h' t z) -> hrepr h' <> hrepr h
  | LBusy i st => exists t f, s_flag (slot_of c (hpath hash h) i) = Some f /\ st = (300 <? now - f)%N /\
                    exists h' z, s_meta (slot_of c (hpath hash h) i) = Some (Meta h' t z) /\ hrepr h' = hrepr h
  | LFound i h' z => exists t, s_meta (slot_of c (hpath hash h) i) = Some (Meta h' t z) /\ hrepr h' = hrepr h /\ s_flag (slot_of c (hpath hash h) i) = None
  end.
Proof.
  intros Ho Ht. unfold look. destruct (find (matches h) (ord (bucket_of c (hpath hash h)))) as [[i s]|] eqn:E.
  - apply find_some in E as [H1 H2]. apply (Permutation_in _ (Ho _)) in H1. apply (slot_in c _ _ _ Ht) in H1. rewrite <- H1 in *. clear H1.
    apply matches_spec in H2 as (h' & t & z & H2 & H3). cbn [snd] in H2. destruct (s_flag (slot_of c (hpath hash h) i)) as [f|] eqn:F.
    + exists t, f. eauto 6.
    + rewrite H2. eauto.
  - intros i h' t z H1 H2. assert (In (i, slot_of c (hpath hash h) i) (ord (bucket_of c (hpath hash h)))) as Hin.
    { apply (Permutation_in _ (Permutation_sym (Ho _))), in_slot. rewrite H1. discriminate. }
    pose proof (find_none _ _ E _ Hin) as K. assert (matches h (i, slot_of c (hpath hash h) i) = true) as K'; [|congruence].
    apply matches_spec. eauto 6.
Qed.

(** ** the next increment *)
Definition is_last (l : list (text * slot)) (m : text) : Prop :=
  (exists s, In (m, s) l /\ s_meta s <> None) /\ forall i s, In (i, s) l -> s_meta s <> None -> text_cmp i m <> Gt.
Lemma fold_inc l : forall seen acc,
  match acc with Some m => is_last seen m | None => forall i s, In (i, s) seen -> s_meta s = None end ->
  match fold_left inc_step l acc with Some m => is_last (seen ++ l) m | None => forall i s, In (i, s) (seen ++ l) -> s_meta s = None end.
Proof.
  induction l as [|[x sx] l IH]; intros seen acc H; cbn [fold_left]; [rewrite app_nil_r; exact H|].
  replace (seen ++ (x, sx) :: l) with ((seen ++ [(x, sx)]) ++ l) by (rewrite <- app_assoc; reflexivity). apply IH. unfold inc_step. cbn [fst snd].
  destruct (s_meta sx) as [mx|] eqn:E.
  - destruct acc as [m|].
    + destruct H as [(s & H1 & H1') H2]. destruct (is_gt (text_cmp x m)) eqn:G.
      * split; [exists sx; split; [apply in_or_app; right; left; reflexivity|congruence]|]. intros i s' Hi Hs.
        apply in_app_or in Hi as [Hi|[[= <- <-]|[]]]; [|rewrite cmp_refl; discriminate].
        apply (tpo_trans _ _ TPO_text i m x I I I); [apply (H2 i s'); assumption|apply is_gt_flip, G].
      * split; [exists s; split; [apply in_or_app; left; exact H1|exact H1']|]. intros i s' Hi Hs.
        apply in_app_or in Hi as [Hi|[[= <- <-]|[]]]; [apply (H2 i s'); assumption|]. destruct (text_cmp x m); discriminate.
    + split; [exists sx; split; [apply in_or_app; right; left; reflexivity|congruence]|]. intros i s' Hi Hs.
      apply in_app_or in Hi as [Hi|[[= <- <-]|[]]]; [destruct Hs; apply (H i s' Hi)|rewrite cmp_refl; discriminate].
  - destruct acc as [m|].
    + destruct H as [(s & H1 & H1') H2]. split; [exists s; split; [apply in_or_app; left; exact H1|exact H1']|]. intros i s' Hi Hs.
      apply in_app_or in Hi as [Hi|[[= <- <-]|[]]]; [apply (H2 i s'); assumption|congruence].
    + intros i s' Hi. apply in_app_or in Hi as [Hi|[[= <- <-]|[]]]; [apply (H i s' Hi)|exact E].
Qed.
Lemma next_inc_fresh ord c b i : any_order ord -> tidy c -> short_names c b -> next_inc ord (bucket_of c b) = Some i ->
  s_meta (slot_of c b i) = None.
Proof.
  intros Ho Ht Hs Hi. destruct (s_meta (slot_of c b i)) as [mi|] eqn:Em; [|reflexivity]. exfalso.
  assert (has_entry c b i) as He by (unfold has_entry; congruence). destruct (Hs i He) as [Li Ni].
  assert (In (i, slot_of c b i) (ord (bucket_of c b))) as Hin by (apply (Permutation_in _ (Permutation_sym (Ho _))), in_slot; congruence).
  unfold next_inc in Hi. pose proof (fold_inc (ord (bucket_of c b)) [] None) as F. cbn [app] in F.
  destruct (fold_left inc_step (ord (bucket_of c b)) None) as [m|].
  - destruct F as [(s & F1 & F2) F3]; [intros ? ? []|]. apply (Permutation_in _ (Ho _)) in F1. apply (slot_in c _ _ _ Ht) in F1.
    destruct (Hs m) as [Lm Nm]; [unfold has_entry; rewrite F1; exact F2|].
    assert (m <> []) as Hne by (intros ->; discriminate). rewrite (increment_agrees m Lm Hne) in Hi.
    pose proof (F3 i _ Hin) as Hc. rewrite Em in Hc. specialize (Hc ltac:(discriminate)). apply cmp_flip in Hc.
    destruct (next_shortlex m i Hi) as [K|[_ K]]; [lia|congruence].
  - specialize (F ltac:(intros ? ? []) i _ Hin). congruence.
Qed.
Lemma next_inc_some ord c b : any_order ord -> tidy c -> short_names c b -> exists i, next_inc ord (bucket_of c b) = Some i.
Proof.
  intros Ho Ht Hs. unfold next_inc. pose proof (fold_inc (ord (bucket_of c b)) [] None) as F. cbn [app] in F.
  destruct (fold_left inc_step (ord (bucket_of c b)) None) as [m|]; [|eauto]. destruct F as [(s & F1 & F2) _]; [intros ? ? []|].
  apply (Permutation_in _ (Ho _)) in F1. apply (slot_in c _ _ _ Ht) in F1. destruct (Hs m) as [Lm Nm]; [unfold has_entry; rewrite F1; exact F2|].
  destruct m as [|x m]; [discriminate|]. eexists. reflexivity.
Qed.

(** ** what a process is about to do *)
Variable truth : text -> files.
(** the payload after the remaining writes *)
Definition fill (ws : list action) (s : slot) : slot := fold_left (fun s a => act a s) ws s.
Definition is_write (a : action) : bool := match a with AMkdir | AWrite _ _ => true | _ => false end.
Inductive building (h : handle) (src : files) (sl : slot) : list action -> Prop :=
| b_flag t : s_meta sl = None -> building h src sl (add_acts h src t)
| b_trunc t z : s_flag sl <> None -> s_meta sl = None -> building h src sl (ATrunc :: AMeta h t z :: copy_acts src ++ [AUnflag])
| b_meta t z : s_flag sl <> None -> s_meta sl = Some Garbled -> s_load sl = None -> building h src sl (AMeta h t z :: copy_acts src ++ [AUnflag])
| b_fill t z ws : s_flag sl <> None -> s_meta sl = Some (Meta h t z) -> forallb is_write ws = true -> s_load (fill ws sl) = Some src ->
    building h src sl (ws ++ [AUnflag]).
Definition touching (sl : slot) (acts : list action) : Prop :=
  s_flag sl = None /\ s_meta sl <> None /\ exists h t z, s_load sl = Some (truth (hrepr h)) /\ (acts = touch_acts h t z \/ acts = [AMeta h t z]).
Definition proc_ok (c : cache) (s : stage) : Prop :=
  match s with
  | Start o => honest truth o /\ removal o = false
  | Chosen h src => src = truth (hrepr h) /\ NoDup (akeys src)
  | Acting b i acts (CreatedNow, _) => acts = [] \/ exists h src, src = truth (hrepr h) /\ NoDup (akeys src) /\ building h src (slot_of c b i) acts
  | Acting b i acts (Found, _) => acts = [] \/ touching (slot_of c b i) acts
  | Acting b i acts _ => acts = []
  | _ => True
  end.
Definition exclusive (ss : list stage) : Prop :=
  forall m n s s' b, m <> n -> nth_error ss m = Some s -> nth_error ss n = Some s' -> adding hash b s -> ~ adding hash b s'.
Record Inv (st : system) : Prop := {
  i_complete : complete truth (fst st);
  i_stray : no_stray (fst st);
  i_tidy : tidy (fst st);
  i_procs : forall n s, nth_error (snd st) n = Some s -> proc_ok (fst st) s;
  i_excl : exclusive (snd st)
}.

(** ** copying *)
Lemma aput_fresh f x (l : files) : ~ In f (akeys l) -> aput f x l = l ++ [(f, x)].
Proof.
  induction l as [|[k v] l IH]; cbn [aput app]; intros H; [reflexivity|]. destruct (text_eqb_spec f k) as [->|Hk]; [destruct H; left; reflexivity|].
  f_equal. apply IH. intros K. apply H. right. exact K.
Qed.
Lemma aput_last f x y (l : files) : ~ In f (akeys l) -> aput f x (l ++ [(f, y)]) = l ++ [(f, x)].
Proof.
  induction l as [|[k v] l IH]; cbn [aput app]; intros H; [rewrite text_eqb_refl; reflexivity|].
  destruct (text_eqb_spec f k) as [->|Hk]; [destruct H; left; reflexivity|]. f_equal. apply IH. intros K. apply H. right. exact K.
Qed.
Lemma fill_files src : forall sl l, s_load sl = Some l -> NoDup (akeys (l ++ src)) ->
  s_load (fill (flat_map (fun f => [AWrite (fst f) []; AWrite (fst f) (snd f)]) src) sl) = Some (l ++ src).
Proof.
  induction src as [|[f x] src IH]; intros sl l Hl Hn; cbn [flat_map app].
  - cbn. rewrite app_nil_r. exact Hl.
  - unfold fill. cbn [fold_left fst snd]. fold (fill (flat_map (fun f => [AWrite (fst f) []; AWrite (fst f) (snd f)]) src)).
    assert (~ In f (akeys l)) as Hf.
    { unfold akeys in Hn. rewrite map_app in Hn. apply nodup_app_split in Hn as (_ & _ & Hn). intros K. apply (Hn f K). left. reflexivity. }
    replace (l ++ (f, x) :: src) with ((l ++ [(f, x)]) ++ src) in * by (rewrite <- app_assoc; reflexivity). unfold fill. apply IH; [|exact Hn].
    cbn [act s_load]. rewrite Hl, (aput_fresh f [] l Hf), (aput_last f x [] l Hf). reflexivity.
Qed.
Lemma fill_copy src sl : s_load sl = None -> NoDup (akeys src) -> s_load (fill (copy_acts src) sl) = Some src.
Proof.
  intros Hl Hn. unfold copy_acts, fill. cbn [fold_left]. apply (fill_files src (act AMkdir sl) []); [cbn; rewrite Hl; reflexivity|exact Hn].
Qed.
Lemma copy_writes src : forallb is_write (copy_acts src) = true.
Proof. unfold copy_acts. cbn [forallb is_write andb]. induction src as [|f src IH]; [reflexivity|exact IH]. Qed.
Lemma write_keeps a sl : is_write a = true -> s_flag (act a sl) = s_flag sl /\ s_meta (act a sl) = s_meta sl.
Proof. destruct a; try discriminate; intros _; split; reflexivity. Qed.

(** one step of an addition *)
Lemma building_step h src sl a acts : src = truth (hrepr h) -> NoDup (akeys src) ->
  (s_meta sl = None -> s_load sl = None) -> building h src sl (a :: acts) ->
  (acts = [] \/ building h src (act a sl) acts) /\ (s_meta (act a sl) = None -> s_load (act a sl) = None) /\
  (forall h' t z, s_meta (act a sl) = Some (Meta h' t z) -> s_flag (act a sl) = None -> s_load (act a sl) = Some (truth (hrepr h'))).
Proof.
  intros Hsrc Hn Hstray H. inversion H as [t Hm Ea|t z Hf Hm Ea|t z Hf Hm Hl Ea|t z ws Hf Hm Hw Hl Ea].
  - subst a acts. split; [right; apply b_trunc; cbn; [discriminate|exact Hm]|]. split; [exact Hstray|]. cbn. intros; congruence.
  - subst a acts. split; [right; apply b_meta; cbn; auto|]. split; [discriminate|]. cbn. intros; discriminate.
  - subst a acts. split; [right; apply (b_fill h src _ t z (copy_acts src)); cbn [act s_flag s_meta]; auto using copy_writes; apply fill_copy; auto|].
    split; [discriminate|]. cbn. intros; congruence.
  - destruct ws as [|w ws]; cbn [app] in Ea.
    + injection Ea as <- <-. split; [left; reflexivity|]. cbn [act s_meta s_flag s_load]. split; [congruence|]. intros h' t' z' E _. rewrite Hm in E. injection E as <- <- <-.
      rewrite <- Hsrc. exact Hl.
    + injection Ea as <- <-. cbn [forallb] in Hw. apply andb_true_iff in Hw as [Hw1 Hw2]. destruct (write_keeps w sl Hw1) as [E1 E2].
      split; [right; apply (b_fill h src _ t z ws); [rewrite E1; exact Hf|rewrite E2; exact Hm|exact Hw2|exact Hl]|]. rewrite E1, E2. split; [congruence|]. intros; congruence.
Qed.
Lemma touching_step sl a acts : touching sl (a :: acts) ->
  (acts = [] \/ touching (act a sl) acts) /\ s_flag (act a sl) = None /\ s_meta (act a sl) <> None /\ s_load (act a sl) = s_load sl /\
  (forall h' t z, s_meta (act a sl) = Some (Meta h' t z) -> s_load sl = Some (truth (hrepr h'))).
Proof.
  intros (Hf & Hm & h & t & z & Hl & [E|E]); unfold touch_acts in E; injection E as -> ->; cbn [act s_flag s_meta s_load].
  - split; [right; split; [exact Hf|]; split; [discriminate|]; exists h, t, z; split; [exact Hl|right; reflexivity]|].
    repeat split; try exact Hf; try discriminate.
  - split; [left; reflexivity|]. repeat split; try exact Hf; try discriminate. intros h' t' z' [= <- <- <-]. exact Hl.
Qed.
Lemma touch_other sl a acts acts' : touching sl (a :: acts) -> touching sl acts' -> touching (act a sl) acts'.
Proof.
  intros H (Hf & Hm & h & t & z & Hl & E). destruct (touching_step sl a acts H) as (_ & K1 & K2 & K3 & _).
  split; [exact K1|]. split; [exact K2|]. exists h, t, z. rewrite K3. auto.
Qed.
Lemma building_not_touching h src sl acts acts' : building h src sl acts -> touching sl acts' -> False.
Proof. intros H (Hf & Hm & _). inversion H; congruence. Qed.

(** ** steps *)
Lemma nth_set_same {A} n (x : A) l y : nth_error l n = Some y -> nth_error (set_nth n x l) n = Some x.
Proof. revert n. induction l as [|z l IH]; intros [|n]; cbn; try discriminate; [reflexivity|apply IH]. Qed.
Lemma nth_set_other {A} n (x : A) l m : m <> n -> nth_error (set_nth n x l) m = nth_error l m.
Proof. revert n m. induction l as [|z l IH]; intros [|n] [|m] H; cbn; try reflexivity; try congruence. apply IH. congruence. Qed.
Lemma nth_set_some {A} n (x : A) l m s : nth_error (set_nth n x l) m = Some s -> (m = n /\ s = x) \/ (m <> n /\ nth_error l m = Some s).
Proof.
  intros H. destruct (Nat.eq_dec m n) as [->|Hm].
  - left. split; [reflexivity|]. destruct (nth_error l n) as [y|] eqn:E; [rewrite (nth_set_same n x l y E) in H; congruence|].
    assert (nth_error (set_nth n x l) n = None) as K; [|congruence]. clear H. revert n E. induction l as [|z l IH]; intros [|n]; cbn; try discriminate; auto.
  - right. rewrite nth_set_other in H by exact Hm. auto.
Qed.
(** moving one process while the cache stays as it is *)
Lemma inv_stage c ss n s s' : Inv (c, ss) -> nth_error ss n = Some s -> proc_ok c s' -> (forall b, adding hash b s' -> adding hash b s \/ alone hash b n ss) ->
  Inv (c, set_nth n s' ss).
Proof.
  intros [H1 H2 H3 H4 H5] Hn Hs Ha. split; cbn [fst snd] in *; auto.
  - intros m x Hm. apply nth_set_some in Hm as [[-> ->]|[_ Hm]]; [exact Hs|exact (H4 m x Hm)].
  - intros p q x y b Hpq Hp Hq Hx Hy. apply nth_set_some in Hp as [[-> ->]|[Np Hp]]; apply nth_set_some in Hq as [[-> ->]|[Nq Hq]].
    + congruence.
    + destruct (Ha b Hx) as [K|K]; [exact (H5 n q s y b Hpq Hn Hq K Hy)|exact (K q y Nq Hq Hy)].
    + destruct (Ha b Hy) as [K|K]; [exact (H5 p n x s b Hpq Hp Hn Hx K)|exact (K p x Np Hp Hx)].
    + exact (H5 p q x y b Hpq Hp Hq Hx Hy).
Qed.
(** moving one process at one slot *)
Lemma inv_act c ss n b i a todo ans : Inv (c, ss) -> nth_error ss n = Some (Acting b i (a :: todo) ans) ->
  Inv (act_on c b i a, set_nth n (Acting b i todo ans) ss).
Proof.
  intros [H1 H2 H3 H4 H5] Hn. cbn [fst snd] in *. pose proof (H4 n _ Hn) as Hok. cbn [proc_ok] in Hok. destruct ans as [st w].
  assert ((st = CreatedNow /\ exists h src, src = truth (hrepr h) /\ NoDup (akeys src) /\ building h src (slot_of c b i) (a :: todo)) \/
          (st = Found /\ touching (slot_of c b i) (a :: todo))) as Hcase.
  { destruct st; try discriminate; [right|left]; split; auto; destruct Hok as [Hok|Hok]; try discriminate; exact Hok. }
  assert (proc_ok (act_on c b i a) (Acting b i todo (st, w)) /\ (s_meta (act a (slot_of c b i)) = None -> s_load (act a (slot_of c b i)) = None) /\
    (forall h' t z, s_meta (act a (slot_of c b i)) = Some (Meta h' t z) -> s_flag (act a (slot_of c b i)) = None -> s_load (act a (slot_of c b i)) = Some (truth (hrepr h')))) as (K1 & K2 & K3).
  { destruct Hcase as [(-> & h & src & Hsrc & Hnd & Hb)|[-> Ht]].
    - destruct (building_step h src _ a todo Hsrc Hnd (H2 b i) Hb) as (S1 & S2 & S3). split; [|split; assumption]. cbn [proc_ok]. rewrite act_same.
      destruct S1 as [->|S1]; [left; reflexivity|right; eauto].
    - destruct (touching_step _ a todo Ht) as (S1 & S2 & S3 & S4 & S5). split; [cbn [proc_ok]; rewrite act_same; exact S1|]. split; [congruence|].
      intros h' t z Hm _. rewrite S4. apply (S5 h' t z Hm). }
  split; cbn [fst snd].
  - intros b' i' h t z. unfold payload. destruct (slot_dec b i b' i') as [[-> ->]|Hne]; [rewrite act_same; apply K3|rewrite act_other by exact Hne; apply H1].
  - intros b' i'. unfold payload. destruct (slot_dec b i b' i') as [[-> ->]|Hne]; [rewrite act_same; exact K2|rewrite act_other by exact Hne; apply H2].
  - apply act_tidy, H3.
  - intros m s Hm. apply nth_set_some in Hm as [[-> ->]|[Nm Hm]]; [exact K1|]. pose proof (H4 m s Hm) as Hs.
    destruct s as [o|h src|b' i' acts' [st' w']|x|]; try exact Hs. destruct (slot_dec b i b' i') as [[-> ->]|Hne].
    + cbn [proc_ok] in *. rewrite act_same. destruct st'; try exact Hs; (destruct Hs as [->|Hs]; [left; reflexivity|]).
      * destruct Hcase as [(-> & h & src & Hsrc & Hnd & Hb)|[-> Ht]].
        -- exfalso. exact (building_not_touching _ _ _ _ _ Hb Hs).
        -- right. exact (touch_other _ _ _ _ Ht Hs).
      * exfalso. destruct Hcase as [(-> & h & src & Hsrc & Hnd & Hb)|[-> Ht]].
        -- apply (H5 m n (Acting b i acts' (CreatedNow, w')) (Acting b i (a :: todo) (CreatedNow, w)) b Nm Hm Hn); reflexivity.
        -- destruct Hs as (h & src & _ & _ & Hb). exact (building_not_touching _ _ _ _ _ Hb Ht).
    + cbn [proc_ok] in *. rewrite act_other by exact Hne. exact Hs.
  - intros p q x y bb Hpq Hp Hq Hx Hy. apply nth_set_some in Hp as [[-> ->]|[Np Hp]]; apply nth_set_some in Hq as [[-> ->]|[Nq Hq]].
    + congruence.
    + exact (H5 n q (Acting b i (a :: todo) (st, w)) y bb Hpq Hn Hq Hx Hy).
    + exact (H5 p n x (Acting b i (a :: todo) (st, w)) bb Hpq Hp Hn Hx Hy).
    + exact (H5 p q x y bb Hpq Hp Hq Hx Hy).
Qed.
Lemma found_touching c b i h t z now : complete truth c -> s_meta (slot_of c b i) = Some (Meta h t z) -> s_flag (slot_of c b i) = None ->
  touching (slot_of c b i) (touch_acts h now z).
Proof. intros Hc Hm Hf. split; [exact Hf|]. split; [congruence|]. exists h, now, z. split; [apply (Hc b i h t z Hm Hf)|left; reflexivity]. Qed.
Lemma inv_step ord now n st : any_order ord -> Inv st ->
  (forall h src f, nth_error (snd st) n = Some (Start (OAdd h src f)) -> alone hash (hpath hash h) n (snd st)) ->
  (forall h src, nth_error (snd st) n = Some (Chosen h src) -> short_names (fst st) (hpath hash h)) ->
  Inv (sys_step hash ord now n st).
Proof.
  destruct st as [c ss]. intros Ho HI Ha Hs. unfold sys_step. cbn [fst snd] in *. destruct (nth_error ss n) as [s|] eqn:En; [|exact HI].
  pose proof (i_procs _ HI n s En) as Hok. cbn [fst] in Hok. pose proof (i_tidy _ HI) as Ht. cbn [fst] in Ht.
  destruct s as [o|h src|b i [|a todo] ans|x|]; cbn [pstep].
  - destruct o as [h|h src f|h]; [| |destruct Hok; discriminate].
    + pose proof (look_cases ord now h c Ho Ht) as L. destruct (look hash ord now h c) as [|i stl|i h' z].
      * apply (inv_stage c ss n _ _ HI En); [exact I|intros b []].
      * apply (inv_stage c ss n _ _ HI En); [exact I|intros b []].
      * apply (inv_stage c ss n _ _ HI En); [|intros b []]. destruct L as (t & L1 & L2 & L3). right. apply (found_touching c _ i h' t z now (i_complete _ HI) L1 L3).
    + pose proof (look_cases ord now h c Ho Ht) as L. destruct (look hash ord now h c) as [|i stl|i h' z].
      * destruct f; apply (inv_stage c ss n _ _ HI En); try exact I.
        -- exact (proj1 Hok).
        -- cbn [adding]. intros b <-. right. apply (Ha h src true eq_refl).
        -- intros b [].
      * apply (inv_stage c ss n _ _ HI En); [exact I|intros b []].
      * apply (inv_stage c ss n _ _ HI En); [|intros b []]. destruct L as (t & L1 & L2 & L3). right. apply (found_touching c _ i h' t z now (i_complete _ HI) L1 L3).
  - destruct (next_inc ord (bucket_of c (hpath hash h))) as [i|] eqn:Ei.
    + apply (inv_stage c ss n _ _ HI En); [|cbn [adding]; intros b E; left; exact E]. right. exists h, src. destruct Hok as [K1 K2]. split; [exact K1|]. split; [exact K2|].
      apply b_flag. apply (next_inc_fresh ord c _ i Ho Ht (Hs h src eq_refl) Ei).
    + apply (inv_stage c ss n _ _ HI En); [exact I|intros b []].
  - apply (inv_stage c ss n _ _ HI En); [exact I|intros b' []].
  - apply (inv_act c ss n b i a todo ans HI En).
  - apply (inv_stage c ss n _ _ HI En); [exact I|intros b []].
  - apply (inv_stage c ss n _ _ HI En); [exact I|intros b []].
Qed.
Lemma inv_run st0 st : Inv st0 -> run hash truth st0 st -> Inv st.
Proof.
  intros H0. induction 1 as [|st o H IH Ho Hr|st n a H IH|st n ord now H IH Ho Ha Hs].
  - exact H0.
  - destruct IH as [H1 H2 H3 H4 H5]. split; cbn [fst snd]; auto.
    + intros m s Hm. destruct (lt_dec m (length (snd st))) as [Hl|Hl]; [rewrite nth_error_app1 in Hm by exact Hl; exact (H4 m s Hm)|].
      rewrite nth_error_app2 in Hm by lia. destruct (m - length (snd st)) as [|k]; [|destruct k; discriminate]. injection Hm as <-. split; assumption.
    + assert (forall m s b, nth_error (snd st ++ [Start o]) m = Some s -> adding hash b s -> nth_error (snd st) m = Some s) as K.
      { intros m s b Hm Hb. destruct (lt_dec m (length (snd st))) as [Hl|Hl]; [rewrite nth_error_app1 in Hm by exact Hl; exact Hm|].
        rewrite nth_error_app2 in Hm by lia. destruct (m - length (snd st)) as [|k]; [|destruct k; discriminate]. injection Hm as <-. destruct Hb. }
      intros p q x y b Hpq Hp Hq Hx Hy. exact (H5 p q x y b Hpq (K p x b Hp Hx) (K q y b Hq Hy) Hx Hy).
  - destruct IH as [H1 H2 H3 H4 H5]. split; cbn [fst snd]; auto.
    + intros m s Hm. apply nth_set_some in Hm as [[-> ->]|[_ Hm]]; [exact I|exact (H4 m s Hm)].
    + intros p q x y b Hpq Hp Hq Hx Hy. apply nth_set_some in Hp as [[-> ->]|[Np Hp]]; [destruct Hx|]. apply nth_set_some in Hq as [[-> ->]|[Nq Hq]]; [destruct Hy|].
      exact (H5 p q x y b Hpq Hp Hq Hx Hy).
  - apply inv_step; assumption.
Qed.
Lemma inv_quiet c : complete truth c -> no_stray c -> tidy c -> Inv (c, []).
Proof. intros H1 H2 H3. split; cbn [fst snd]; auto; [intros [|n] s; discriminate|]. intros [|m] n s s' b _ Hm; discriminate. Qed.
Lemma run_found c st ord now h i : complete truth c -> no_stray c -> tidy c -> run hash truth (c, []) st -> any_order ord ->
  finds (look hash ord now h (fst st)) i -> payload (fst st) (hpath hash h) i = Some (truth (hrepr h)).
Proof.
  intros H1 H2 H3 Hr Ho (h' & z & Hf). pose proof (inv_run _ _ (inv_quiet c H1 H2 H3) Hr) as HI.
  pose proof (look_cases ord now h (fst st) Ho (i_tidy _ HI)) as L. rewrite Hf in L. destruct L as (t & L1 & L2 & L3).
  rewrite <- L2. apply (i_complete _ HI _ _ _ t z L1 L3).
Qed.
End Hash.
