(** Proofs about the payload cache: identification of variants, cleaning, space. *)
From Verif Require Import Base Base_lemmas Text_lemmas Range_compat Maps Sorting Order_spec Graph_topo Base26_model Base26_spec Base26_proofs Base26_links
  Payload_model Payload_spec Payload_proofs Payload_seq.

Lemma split_first (c : ascii) (a b x y : text) : ~ In c a -> ~ In c b -> a ++ c :: x = b ++ c :: y -> a = b /\ x = y.
Proof.
  revert b. induction a as [|u a IH]; intros [|v b] Ha Hb E; cbn [app] in E.
  - injection E as ->. auto.
  - injection E as <- _. destruct Hb. left. reflexivity.
  - injection E as -> _. destruct Ha. left. reflexivity.
  - injection E as -> E. destruct (IH b) as [-> ->]; auto; intros K; [apply Ha|apply Hb]; right; exact K.
Qed.
Lemma app_same_length (a b x y : text) : length a = length b -> a ++ x = b ++ y -> a = b /\ x = y.
Proof.
  revert b. induction a as [|u a IH]; intros [|v b] L E; try discriminate; [auto|]. cbn [app] in E. injection E as -> E. injection L as L.
  destruct (IH b L E) as [-> ->]. auto.
Qed.
Lemma lower_no_slash s : ~ In "/"%char s -> ~ In "/"%char (map to_lower s).
Proof.
  intros H K. apply in_map_iff in K as (c & E & Hc). assert (c = "/"%char) as ->; [|exact (H Hc)].
  unfold to_lower in E. destruct (is_upper c) eqn:U; [|exact E]. exfalso. unfold is_upper, in_codes in U. apply andb_true_iff in U as [U1 U2].
  apply N.leb_le in U1. apply N.leb_le in U2. apply (f_equal code) in E. unfold code at 1 in E. rewrite N_ascii_embedding in E by lia. change (code "/"%char) with 47%N in E. lia.
Qed.
Lemma plain_repr hash h1 h2 : plain_handle h1 -> plain_handle h2 -> hpath hash h1 = hpath hash h2 -> hrepr h1 = hrepr h2 -> h1 = h2.
Proof.
  destruct h1 as [n1 v1 i1 a1], h2 as [n2 v2 i2 a2]. unfold plain_handle, hpath, hrepr. cbn [h_name h_version h_index h_attrs].
  intros (-> & Hn1 & Hv1) (-> & Hn2 & Hv2) Hp Hr. cbn [sort_by flat_map] in Hr.
  assert (map to_lower n1 = map to_lower n2 /\ map to_lower (match v1 with Some v => v | None => T "_NO_VERSION" end) = map to_lower (match v2 with Some v => v | None => T "_NO_VERSION" end)) as [E1 E2].
  { apply split_first in Hp as [E1 Hp]; [|apply lower_no_slash, Hn1|apply lower_no_slash, Hn2]. split; [exact E1|].
    apply split_first in Hp as [E2 _]; [exact E2| |]; apply lower_no_slash.
    - destruct v1 as [v|]; [apply Hv1; reflexivity|]. intros K. vm_compute in K. repeat destruct K as [K|K]; discriminate || contradiction.
    - destruct v2 as [v|]; [apply Hv2; reflexivity|]. intros K. vm_compute in K. repeat destruct K as [K|K]; discriminate || contradiction. }
  apply (f_equal (@length ascii)) in E1. apply (f_equal (@length ascii)) in E2. rewrite !map_length in E1, E2.
  apply app_inv_head in Hr. apply app_same_length in Hr as [-> Hr]; [|exact E1].
  assert (v1 = v2 /\ match i1 with Some i => T ", index=" ++ show_N i | None => [] end = match i2 with Some i => T ", index=" ++ show_N i | None => [] end) as [-> Hi].
  { destruct v1 as [v1|], v2 as [v2|].
    - rewrite <- !app_assoc in Hr. apply app_inv_head in Hr. apply app_same_length in Hr as [-> Hr]; [|exact E2]. rewrite !app_nil_r in Hr. auto.
    - exfalso. destruct i2 as [i2|]; discriminate Hr.
    - exfalso. destruct i1 as [i1|]; discriminate Hr.
    - cbn [app] in Hr. rewrite !app_nil_r in Hr. auto. }
  destruct i1 as [i1|], i2 as [i2|]; try discriminate Hi; [|reflexivity]. apply app_inv_head in Hi. apply show_N_inj in Hi as ->. reflexivity.
Qed.
Lemma found_own hash ord now h c i h' z : any_order ord -> tidy c -> filed hash c -> plain_handle h -> plain_handle h' ->
  look hash ord now h c = LFound i h' z -> h' = h.
Proof.
  intros Ho Ht Hf Hp Hp' Hl. pose proof (look_cases hash ord now h c Ho Ht) as L. rewrite Hl in L. destruct L as (t & L1 & L2 & _).
  apply (plain_repr hash); auto. apply (Hf _ _ _ _ _ L1).
Qed.
(** entries are filed where their handle says, at every moment *)
Definition filing (hash : text -> text) (b : text) (a : action) : Prop := match a with AMeta h _ _ => hpath hash h = b | _ => True end.
Lemma filed_step hash ord now c s : any_order ord -> tidy c -> filed hash c ->
  match s with Acting b _ acts _ => Forall (filing hash b) acts | _ => True end ->
  filed hash (fst (pstep hash ord now c s)) /\
  match snd (pstep hash ord now c s) with Acting b _ acts _ => Forall (filing hash b) acts | _ => True end.
Proof.
  intros Ho Ht Hf Ha.
  assert (forall h, match look hash ord now h c with LFound i h' _ => hpath hash h' = hpath hash h | _ => True end) as L.
  { intros h. pose proof (look_cases hash ord now h c Ho Ht) as L. destruct (look hash ord now h c); try exact I. destruct L as (t & L1 & _). apply (Hf _ _ _ _ _ L1). }
  destruct s as [[h1|h1 src1 f|h1]|h1 src1|b i [|a todo] ans|x|]; cbn [pstep].
  - specialize (L h1). destruct (look hash ord now h1 c); cbn [fst snd]; split; auto. repeat constructor; exact L.
  - specialize (L h1). destruct (look hash ord now h1 c); cbn [fst snd]; split; auto; [destruct f; exact I|]. repeat constructor; exact L.
  - specialize (L h1). destruct (look hash ord now h1 c); cbn [fst snd]; split; auto. unfold touch_acts. cbn [app]. repeat constructor; exact L.
  - destruct (next_inc ord _); cbn [fst snd]; split; auto. unfold add_acts. repeat (constructor; [exact I || reflexivity|]). apply Forall_app. split; [|repeat constructor].
    apply Forall_forall. intros x Hx. apply in_flat_map in Hx as (g & _ & [<-|[<-|[]]]); exact I.
  - cbn [fst snd]. auto.
  - cbn [fst snd]. inversion Ha as [|? ? Ha1 Ha2]; subst. split; [|exact Ha2]. intros b' i' h t z. destruct (slot_dec b i b' i') as [[-> ->]|Hne].
    + rewrite act_same. destruct a; cbn [act s_meta]; try apply Hf; try discriminate. intros [= -> -> ->]. exact Ha1.
    + rewrite act_other by exact Hne. apply Hf.
  - cbn [fst snd]. auto.
  - cbn [fst snd]. auto.
Qed.
Lemma pstep_tidy hash ord now c s : tidy c -> tidy (fst (pstep hash ord now c s)).
Proof. intros Ht. exact (steps_tidy hash ord now 1 (c, s) Ht). Qed.
Lemma filed_steps hash ord now k c o : any_order ord -> tidy c -> filed hash c -> filed hash (fst (steps hash ord now k (c, Start o))).
Proof.
  intros Ho Ht Hf.
  assert (forall k cs, filed hash (fst cs) -> tidy (fst cs) -> match snd cs with Acting b _ acts _ => Forall (filing hash b) acts | _ => True end ->
    filed hash (fst (steps hash ord now k cs))) as K; [|apply K; cbn [fst snd]; auto].
  clear Ht Hf c k o. intros k. induction k as [|k IH]; intros [c s] Hf Ht Ha; cbn [steps fst snd] in *; [exact Hf|].
  destruct (filed_step hash ord now c s Ho Ht Hf Ha) as [K1 K2]. apply IH; [exact K1|apply pstep_tidy, Ht|exact K2].
Qed.

(** ** listing *)
Lemma listed_spec c h b i f : proper c -> tidy c ->
  (In (h, (b, i), f) (listed c) <-> exists t z, s_meta (slot_of c b i) = Some (Meta h t z) /\ f = match payload c b i with Some _ => true | None => false end).
Proof.
  intros Hp Ht. unfold listed. rewrite in_flat_map. split.
  - intros ([b' bk] & Hb & H). cbn [fst snd] in H. apply in_flat_map in H as ([i' s] & Hi & H). cbn [fst snd] in H.
    destruct (s_meta s) as [[|h' t z]|] eqn:Em; try contradiction. destruct H as [[= -> -> -> <-]|[]].
    assert (bucket_of c b = bk) as Eb by (unfold bucket_of; replace (aget b (ca_buckets c)) with (Some bk) by (symmetry; apply aget_nodup; assumption); reflexivity).
    assert (slot_of c b i = s) as Es by (apply (slot_in c b i s Ht); rewrite Eb; exact Hi).
    exists t, z. unfold payload. rewrite Es. auto.
  - intros (t & z & Em & ->). assert (s_meta (slot_of c b i) <> None) as Hn by congruence. apply in_slot in Hn. unfold bucket_of in Hn.
    destruct (aget b (ca_buckets c)) as [bk|] eqn:Eb; [|destruct Hn]. exists (b, bk). split; [apply aget_in, Eb|]. cbn [fst snd]. apply in_flat_map.
    exists (i, slot_of c b i). split; [exact Hn|]. cbn [fst snd]. rewrite Em. left. reflexivity.
Qed.

(** ** cleaning *)
Lemma steps_busy_remove hash ord now c h i st : look hash ord now h c = LBusy i st -> remove_variant hash ord now h c = c.
Proof. intros H. unfold remove_variant. apply (busy_stuck hash ord now c (ORemove h) i st 8 H). Qed.
Lemma remove_is_done hash ord now h c : remove_variant hash ord now h c = fst (done hash ord now (ORemove h) c).
Proof. unfold remove_variant, done, enough. reflexivity. Qed.
Lemma remove_stale hash ord now c h b i t z : any_order ord -> tidy c -> unique_entries c -> filed hash c ->
  s_meta (slot_of c b i) = Some (Meta h t z) -> s_flag (slot_of c b i) = None ->
  slot_of (remove_variant hash ord now h c) b i = no_slot /\ forall b' i', b' <> b \/ i' <> i -> slot_of (remove_variant hash ord now h c) b' i' = slot_of c b' i'.
Proof.
  intros Ho Ht Hu Hf Hm Hfl. pose proof (Hf b i h t z Hm) as Hb. subst b.
  pose proof (look_cases hash ord now h c Ho Ht) as L. destruct (look hash ord now h c) as [|j st|j h' z'] eqn:El.
  - exfalso. exact (L i h t z Hm eq_refl).
  - exfalso. destruct L as (t' & f & F & _ & h' & z' & E & R). assert (j = i) as -> by (apply (Hu _ j i h' h t' z' t z E Hm R)). congruence.
  - assert (j = i) as ->.
    { destruct L as (t' & E & R & _). apply (Hu _ j i h' h t' z' t z E Hm R). }
    destruct (remove_done hash ord now c h i h' z' Ho Ht Hu El) as (_ & E0 & E1 & _). rewrite remove_is_done. split; [exact E0|exact E1].
Qed.
Lemma remove_busy hash ord now c h b i t z f : any_order ord -> tidy c -> unique_entries c -> filed hash c ->
  s_meta (slot_of c b i) = Some (Meta h t z) -> s_flag (slot_of c b i) = Some f -> remove_variant hash ord now h c = c.
Proof.
  intros Ho Ht Hu Hf Hm Hfl. pose proof (Hf b i h t z Hm) as Hb. subst b.
  pose proof (look_cases hash ord now h c Ho Ht) as L. destruct (look hash ord now h c) as [|j st|j h' z'] eqn:El.
  - exfalso. exact (L i h t z Hm eq_refl).
  - exact (steps_busy_remove hash ord now c h j st El).
  - exfalso. destruct L as (t' & E & R & F). assert (j = i) as -> by (apply (Hu _ j i h' h t' z' t z E Hm R)). congruence.
Qed.
Definition named (b i : text) (e : handle * (text * text) * bool) : Prop := snd (fst e) = (b, i).
Lemma clean_entries_spec hash ord debug max now c0 : any_order ord -> unique_entries c0 -> filed hash c0 -> past_access now c0 -> forall es c,
  tidy c -> (forall b i, slot_of c b i = slot_of c0 b i \/ slot_of c b i = no_slot) ->
  (forall h b i f, In (h, (b, i), f) es -> exists t z, s_meta (slot_of c0 b i) = Some (Meta h t z) /\ f = match payload c0 b i with Some _ => true | None => false end) ->
  exists c', clean_entries hash ord debug max now es c = Some c' /\ tidy c' /\
    forall b i, ((exists e, In e es /\ named b i e) /\ stale max now (slot_of c0 b i) = true -> slot_of c' b i = no_slot) /\
                (~ ((exists e, In e es /\ named b i e) /\ stale max now (slot_of c0 b i) = true) -> slot_of c' b i = slot_of c b i).
Proof.
  intros Ho Hu Hf Hp. induction es as [|[[h [b i]] f] es IH]; intros c Ht Hc He; cbn [clean_entries].
  - exists c. split; [reflexivity|]. split; [exact Ht|]. intros b i. split; [intros [(e & [] & _) _]|reflexivity].
  - assert (forall h b i f, In (h, (b, i), f) es -> exists t z, s_meta (slot_of c0 b i) = Some (Meta h t z) /\ f = match payload c0 b i with Some _ => true | None => false end) as He'
      by (intros h1 b1 i1 f1 H1; apply He; right; exact H1).
    destruct (He h b i f (or_introl eq_refl)) as (t & z & Em & Ef).
    assert (unique_entries c) as Huc.
    { intros b1 i1 j1 h1 h2 t1 z1 t2 z2 E1 E2 R. destruct (Hc b1 i1) as [X|X]; rewrite X in E1; [|discriminate]. destruct (Hc b1 j1) as [Y|Y]; rewrite Y in E2; [|discriminate].
      exact (Hu b1 i1 j1 h1 h2 t1 z1 t2 z2 E1 E2 R). }
    assert (filed hash c) as Hfc.
    { intros b1 i1 h1 t1 z1 E1. destruct (Hc b1 i1) as [X|X]; rewrite X in E1; [|discriminate]. exact (Hf b1 i1 h1 t1 z1 E1). }
    (* leaving the cache as it is *)
    assert (stale max now (slot_of c0 b i) = false \/ slot_of c b i = no_slot ->
      exists c', clean_entries hash ord debug max now es c = Some c' /\ tidy c' /\
        forall b' i', ((exists e, In e ((h, (b, i), f) :: es) /\ named b' i' e) /\ stale max now (slot_of c0 b' i') = true -> slot_of c' b' i' = no_slot) /\
          (~ ((exists e, In e ((h, (b, i), f) :: es) /\ named b' i' e) /\ stale max now (slot_of c0 b' i') = true) -> slot_of c' b' i' = slot_of c b' i')) as Keep.
    { intros Hk. destruct (IH c Ht Hc He') as (c' & E1 & E2 & E3). exists c'. split; [exact E1|]. split; [exact E2|]. intros b' i'. destruct (E3 b' i') as [E4 E5]. split.
      - intros [(e & [<-|Hin] & Hn) Hs].
        + unfold named in Hn. cbn [fst snd] in Hn. injection Hn as <- <-. destruct Hk as [Hk|Hk]; [congruence|].
          destruct (existsb (fun e => text_eqb b (fst (snd (fst e))) && text_eqb i (snd (snd (fst e)))) es) eqn:X.
          * apply E4. split; [|exact Hs]. apply existsb_exists in X as (e & Hin & X). apply andb_true_iff in X as [X1 X2].
            apply text_eqb_eq in X1. apply text_eqb_eq in X2. exists e. split; [exact Hin|]. unfold named. rewrite X1, X2. destruct e as [[? [? ?]] ?]. reflexivity.
          * rewrite E5; [exact Hk|]. intros [(e & Hin & Hn) _]. unfold named in Hn.
            assert (existsb (fun e => text_eqb b (fst (snd (fst e))) && text_eqb i (snd (snd (fst e)))) es = true) as K; [|congruence].
            apply existsb_exists. exists e. split; [exact Hin|]. rewrite Hn. cbn [fst snd]. rewrite !text_eqb_refl. reflexivity.
        + apply E4. split; [exists e; auto|exact Hs].
      - intros Hno. apply E5. intros [(e & Hin & Hn) Hs]. apply Hno. split; [exists e; split; [right; exact Hin|exact Hn]|exact Hs]. }
    destruct f.
    2:{ apply Keep. left. unfold stale. rewrite Em. unfold payload in Ef. destruct (s_flag (slot_of c0 b i)); [reflexivity|]. destruct (s_load (slot_of c0 b i)); [discriminate|reflexivity]. }
    destruct (Hc b i) as [X|X].
    2:{ rewrite X. cbn [s_meta no_slot]. apply Keep. right. exact X. }
    rewrite X, Em. assert (t <= now)%N as Hle by (apply (Hp b i h t z Em)). unfold too_old. apply N.leb_le in Hle. rewrite Hle.
    destruct (max <? now - t)%N eqn:Eage.
    2:{ apply Keep. left. unfold stale. rewrite Em. destruct (s_flag (slot_of c0 b i)); [reflexivity|]. destruct (s_load (slot_of c0 b i)); [exact Eage|reflexivity]. }
    destruct (s_flag (slot_of c0 b i)) as [fl|] eqn:Efl.
    + rewrite (remove_busy hash ord now c h b i t z fl Ho Ht Huc Hfc) by (rewrite X; assumption). apply Keep. left. unfold stale. rewrite Em, Efl. reflexivity.
    + assert (s_meta (slot_of c b i) = Some (Meta h t z)) as Em' by (rewrite X; exact Em). assert (s_flag (slot_of c b i) = None) as Efl' by (rewrite X; exact Efl).
      destruct (remove_stale hash ord now c h b i t z Ho Ht Huc Hfc Em' Efl') as [R0 R1].
      assert (stale max now (slot_of c0 b i) = true) as Hst.
      { unfold stale. rewrite Em, Efl. unfold payload in Ef. destruct (s_load (slot_of c0 b i)); [exact Eage|discriminate]. }
      destruct (IH (remove_variant hash ord now h c)) as (c' & E1 & E2 & E3).
      * unfold remove_variant. apply steps_tidy. exact Ht.
      * intros b' i'. destruct (slot_dec b i b' i') as [[-> ->]|Hne]; [right; exact R0|rewrite (R1 b' i' Hne); apply Hc].
      * exact He'.
      * exists c'. split; [exact E1|]. split; [exact E2|]. intros b' i'. destruct (E3 b' i') as [E4 E5]. destruct (slot_dec b i b' i') as [[-> ->]|Hne].
        -- split; [|intros Hno; exfalso; apply Hno; split; [exists (h, (b, i), true); split; [left; reflexivity|reflexivity]|exact Hst]].
           intros _. destruct (existsb (fun e => text_eqb b (fst (snd (fst e))) && text_eqb i (snd (snd (fst e)))) es) eqn:Y.
           ++ apply E4. split; [|exact Hst]. apply existsb_exists in Y as (e & Hin & Y). apply andb_true_iff in Y as [Y1 Y2].
              apply text_eqb_eq in Y1. apply text_eqb_eq in Y2. exists e. split; [exact Hin|]. unfold named. rewrite Y1, Y2. destruct e as [[? [? ?]] ?]. reflexivity.
           ++ rewrite E5; [exact R0|]. intros [(e & Hin & Hn) _]. unfold named in Hn.
              assert (existsb (fun e => text_eqb b (fst (snd (fst e))) && text_eqb i (snd (snd (fst e)))) es = true) as K; [|congruence].
              apply existsb_exists. exists e. split; [exact Hin|]. rewrite Hn. cbn [fst snd]. rewrite !text_eqb_refl. reflexivity.
        -- split.
           ++ intros [(e & [<-|Hin] & Hn) Hs]; [unfold named in Hn; cbn [fst snd] in Hn; injection Hn as <- <-; destruct Hne; congruence|]. apply E4. split; [exists e; auto|exact Hs].
           ++ intros Hno. rewrite E5, (R1 b' i' Hne); [reflexivity|]. intros [(e & Hin & Hn) Hs]. apply Hno. split; [exists e; split; [right; exact Hin|exact Hn]|exact Hs].
Qed.
Lemma clean_exact hash ord lord debug max now c : any_order ord -> any_order lord -> proper c -> tidy c -> unique_entries c -> filed hash c -> past_access now c ->
  exists c', clean hash ord lord debug (Some max) now c = Some c' /\
    forall b i, slot_of c' b i = if stale max now (slot_of c b i) then no_slot else slot_of c b i.
Proof.
  intros Ho Hlo Hp Ht Hu Hf Hpa. unfold clean. set (c1 := mkCache (ca_buckets c) []).
  assert (forall b i, slot_of c1 b i = slot_of c b i) as E1 by reflexivity.
  assert (tidy c1) as Ht1 by exact Ht. assert (proper c1) as Hp1 by exact Hp.
  destruct (clean_entries_spec hash ord debug max now c Ho Hu Hf Hpa (lord (listed c1)) c1 Ht1) as (c' & K1 & K2 & K3).
  - intros b i. left. apply E1.
  - intros h b i f Hin. apply (Permutation_in _ (Hlo _)) in Hin. apply (listed_spec c1 h b i f Hp1 Ht1) in Hin. exact Hin.
  - exists c'. split; [exact K1|]. intros b i. destruct (K3 b i) as [K4 K5]. destruct (stale max now (slot_of c b i)) eqn:Es.
    + apply K4. split; [|reflexivity]. unfold stale in Es. destruct (s_meta (slot_of c b i)) as [[|h t z]|] eqn:Em; try discriminate.
      destruct (s_flag (slot_of c b i)); [discriminate|]. destruct (s_load (slot_of c b i)) eqn:El; [|discriminate].
      exists (h, (b, i), true). split; [|reflexivity]. apply (Permutation_in _ (Permutation_sym (Hlo _))), (listed_spec c1 h b i true Hp1 Ht1).
      exists t, z. rewrite E1. split; [exact Em|]. unfold payload. rewrite E1, El. reflexivity.
    + apply K5. intros [_ X]. discriminate.
Qed.
