(** Proofs about orders of maps, base environments and contexts. *)
From Verif Require Import Base Base_lemmas Text_lemmas Maps Sorting Order_spec Version_model Package_model Requirement_model.
From Verif Require Import Rex_model Rex_spec Rex_proofs Rex_shell Rex_parse Env_model Env_spec Env_proofs Env_gen Env_path.
Open Scope char_scope.

(** ** Independence of orders *)
Lemma known_tame p : steady p -> tame (known p).
Proof.
  intros (Hn & Hr & Hv & _). unfold known.
  assert (R : harmless (match ep_root p with Some r => r | None => T "/packages/" ++ ep_name p end)).
  { destruct (ep_root p) as [r|]; [apply Hr; reflexivity|]. destruct Hn as [[H1 H2] H3].
    repeat split; intros K; apply in_app_iff in K as [K|K]; try contradiction; cbn in K; repeat (destruct K as [K|K]; [discriminate|]); exact K. }
  apply package_ctx_tame; [|exact Hn|intros r [= <-]; exact R|exact Hv].
  assert (T0 : tame [(T "root", match ep_root p with Some r => r | None => T "/packages/" ++ ep_name p end)]).
  { apply (tame_put [] (T "root")); [intros k v []|discriminate|apply text_braceless; reflexivity|exact R]. }
  apply tame_put; [|discriminate|apply text_braceless; reflexivity|exact Hn].
  destruct (ep_version p) as [v|]; [|exact T0]. apply tame_put; [exact T0|discriminate|apply text_braceless; reflexivity|apply Hv; reflexivity].
Qed.
Lemma known_nodup p : NoDup (map fst (known p)).
Proof.
  unfold known. apply package_ctx_nodup. apply nodup_put.
  assert (N : forall r : text, NoDup (akeys [(T "root", r)])) by (intros r; constructor; [intros []|constructor]).
  destruct (ep_version p); [apply nodup_put|]; apply N.
Qed.
Lemma asked_order w w' p o acts : any_order (w_expand w) -> any_order (w_expand w') -> steady p -> In o [ep_pre p; ep_commands p; ep_post p] ->
  asked w p o acts -> asked w' p o acts.
Proof.
  intros O1 O2 Hs Ho. destruct o as [c|]; [|auto]. intros [l [Hl ->]]. exists l. split; [exact Hl|]. apply map_ext_in. intros a Ha.
  apply expand_action_ext. intros s Hs'. pose proof (known_tame p Hs) as Ht. destruct Hs as (_ & _ & _ & Hs). destruct (Hs c l a s Ho Hl Ha Hs') as [Hf Hc].
  apply expand_order; try assumption. apply known_nodup.
Qed.
Lemma phase_order w w' sel ps acts : any_order (w_expand w) -> any_order (w_expand w') -> (forall p, In p ps -> steady p) ->
  (forall p, In (sel p) [ep_pre p; ep_commands p; ep_post p]) -> phase w sel ps acts -> phase w' sel ps acts.
Proof.
  intros O1 O2 Hs Hsel H. induction H as [|p ps a b Ha Hb IH]; [constructor|]. constructor.
  - eapply asked_order; [exact O1|exact O2|apply Hs; left; reflexivity|apply Hsel|exact Ha].
  - apply IH. intros x Hx. apply Hs. right. exact Hx.
Qed.
Lemma script_order w w' c ps vars cmds extra : any_order (w_expand w) -> any_order (w_expand w') -> (forall p, In p ps -> steady p) ->
  script w c ps vars cmds extra -> script w' c ps vars cmds (map (fun kv => Setenv (fst kv) (snd kv)) (w_extra w' (c_extra c))).
Proof.
  intros O1 O2 Hs (-> & (a1 & a2 & a3 & H1 & H2 & H3 & ->) & ->). split; [reflexivity|]. split; [|reflexivity]. exists a1, a2, a3.
  repeat split; (eapply phase_order; [exact O1|exact O2|exact Hs| |eassumption]); intros p; cbn; auto.
Qed.
Definition hits (x : text) (a : action) : bool := match writes a with Some n => text_eqb n x | None => false end.
Lemma on_var_filter x l : on_var x l (filter (hits x) l).
Proof.
  induction l as [|a l IH]; [constructor|]. cbn [filter]. unfold hits at 1. destruct (writes a) as [n|] eqn:E.
  - destruct (text_eqb_spec n x) as [->|Hn]; [constructor; assumption|]. constructor; [congruence|exact IH].
  - constructor; [congruence|exact IH].
Qed.
Lemma filter_one {A} (f : A -> option text) x l : NoDup (map f l) ->
  length (filter (fun a => match f a with Some n => text_eqb n x | None => false end) l) <= 1.
Proof.
  induction l as [|a l IH]; intros N; [cbn; lia|]. cbn in N. inversion N as [|? ? Hn N']; subst. cbn [filter].
  destruct (f a) as [n|] eqn:E; [|apply IH, N']. destruct (text_eqb_spec n x) as [->|]; [|apply IH, N']. cbn [length].
  assert (Z : filter (fun a => match f a with Some n => text_eqb n x | None => false end) l = []).
  { clear IH N N'. induction l as [|b l IHl]; [reflexivity|]. cbn in Hn. cbn [filter]. destruct (f b) as [m|] eqn:Eb; [|apply IHl; tauto].
    destruct (text_eqb_spec m x) as [->|]; [|apply IHl; tauto]. exfalso. apply Hn. left. reflexivity. }
  rewrite Z. apply le_n.
Qed.
Lemma one_perm {A} (l l' : list A) : Permutation l l' -> length l <= 1 -> l = l'.
Proof.
  intros P H. destruct l as [|a [|b l]]; [apply Permutation_nil in P; auto|apply Permutation_length_1_inv in P; auto|cbn in H; lia].
Qed.
Definition sets (l : list (text * text)) : list action := map (fun kv => Setenv (fst kv) (snd kv)) l.
Lemma sets_keyed win l : map (keyed win) (filter assigns (sets l)) = map (fun kv => Setenv (environment_key win (fst kv)) (snd kv)) l.
Proof. induction l as [|kv l IH]; [reflexivity|]. cbn. f_equal. exact IH. Qed.
Lemma drafted_order win base acts l l' : Permutation l l' -> NoDup (map (fun kv => environment_key win (fst kv)) l) ->
  same_map (drafted win base (acts ++ sets l)) (drafted win base (acts ++ sets l')).
Proof.
  intros P N x. rewrite !(drafted_var win base _ x _ (on_var_filter x _)). f_equal. rewrite !filter_app, !map_app, !filter_app, !sets_keyed. f_equal.
  apply one_perm.
  - apply filter_perm, Permutation_map, P.
  - apply (filter_one writes). rewrite map_map. cbn.
    apply (FinFun.Injective_map_NoDup (f := @Some text)) in N; [|intros a b; congruence]. rewrite map_map in N. exact N.
Qed.
Lemma tool_paths_order w w' ps : same_platform w w' -> tool_paths w ps = tool_paths w' ps.
Proof. intros (_ & H2 & H3). unfold tool_paths, tool_path. rewrite H2, H3. reflexivity. Qed.
Lemma pathmods_order w w' c ps m m' : same_platform w w' -> same_map m m' -> same_map (path_modifications w c ps m) (path_modifications w' c ps m').
Proof.
  intros Hp Hm. unfold path_modifications. rewrite (tool_paths_order w w' ps Hp). destruct Hp as (H1 & _). rewrite H1, (Hm (environment_key (w_win w') (T "PATH"))).
  destruct (c_strategy c); try exact Hm; destruct (is_nil _); try exact Hm; intros x;
    (destruct (text_eq_dec x (environment_key (w_win w') (T "PATH"))) as [->|Hn]; [rewrite !aget_put_same; reflexivity|rewrite !aget_put_other by exact Hn; apply Hm]).
Qed.
Lemma unset_order win ns : forall m m' : list (text * text), same_map m m' ->
  same_map (fold_left (fun m n => adel (environment_key win n) m) ns m) (fold_left (fun m n => adel (environment_key win n) m) ns m').
Proof.
  intros m m' H x. destruct (aget_unset win ns m x) as [A1 A2], (aget_unset win ns m' x) as [B1 B2].
  destruct (in_dec text_eq_dec x (map (environment_key win) ns)) as [Hi|Hi]; [rewrite A1, B1 by exact Hi; reflexivity|]. rewrite A2, B2 by exact Hi. apply H.
Qed.
Lemma normalize_order w w' m m' : w_win w = w_win w' -> any_order (w_keys w) -> any_order (w_keys w') -> same_map m m' ->
  (forall x, aget x m <> None -> pathlike x -> x = T "PATH") -> same_map (normalize w m) (normalize w' m').
Proof.
  intros Hw O1 O2 Hm Hu.
  assert (K : forall w0 m0, any_order (w_keys w0) -> same_map m m0 -> path_key w0 m0 = T "PATH").
  { intros w0 m0 Ho Hs. apply path_key_one; [exact Ho| |intros _; reflexivity|right; symmetry; apply key_path].
    intros x Hx Hp. apply Hu; [|exact Hp]. rewrite Hs. apply aget_some in Hx as [v ->]. discriminate. }
  unfold normalize. rewrite (K w m O1), (K w' m' O2) by (intros x; auto). rewrite <- (Hm (T "PATH")), Hw. destruct (aget (T "PATH") m); [|exact Hm].
  intros x. destruct (text_eq_dec x (T "PATH")) as [->|Hn]; [rewrite !aget_put_same; reflexivity|rewrite !aget_put_other by exact Hn; apply Hm].
Qed.
Definition alike (e e' : renv) : Prop :=
  e_aliases e = e_aliases e' /\ e_startup e = e_startup e' /\ e_sourced e = e_sourced e' /\ e_infos e = e_infos e' /\ e_stopped e = e_stopped e' /\ e_stop_msg e = e_stop_msg e'.
Lemma apply_alike win l : forall e e', alike e e' -> alike (apply win e l) (apply win e' l).
Proof.
  induction l as [|a l IH]; intros e e' H; [exact H|]. cbn [apply].
  assert (A : alike (apply_action win e a) (apply_action win e' a)).
  { destruct H as (H1 & H2 & H3 & H4 & H5 & H6). unfold alike. destruct a; cbn [apply_action]; try (destruct (ahas _ (e_vars e)), (ahas _ (e_vars e')));
      cbn; rewrite ?H1, ?H2, ?H3, ?H4, ?H5, ?H6; auto 10. }
  cbv zeta. destruct (is_stop a); [exact A|apply IH, A].
Qed.
Lemma generate_order w w' c base ps : same_platform w w' -> all_orders w -> all_orders w' -> (forall p, In p ps -> steady p) ->
  NoDup (map (fun kv => environment_key (w_win w) (fst kv)) (c_extra c)) ->
  (forall vars cmds extra, script w c ps vars cmds extra -> one_path (w_win w) base (vars ++ cmds ++ extra)) ->
  agree (generate w c base ps) (generate w' c base ps).
Proof.
  intros Hp (O1 & O2 & O3) (O1' & O2' & O3') Hs N H1.
  destruct (generate w c base ps) as [e|] eqn:E.
  - assert (X : generate w c base ps <> None) by congruence. apply generate_some in X as (vars & cmds & extra & Hsc).
    pose proof (script_order w w' c ps vars cmds extra O1 O1' Hs Hsc) as Hsc'.
    assert (Ex : extra = sets (w_extra w (c_extra c))) by apply Hsc.
    rewrite (generate_script w c base ps _ _ _ Hsc) in E. injection E as <-. rewrite (generate_script w' c base ps _ _ _ Hsc').
    specialize (H1 _ _ _ Hsc). fold (sets (w_extra w' (c_extra c))).
    assert (M : same_map (finished w c ps (drafted (w_win w) base (vars ++ cmds ++ extra)))
                         (finished w' c ps (drafted (w_win w') base (vars ++ cmds ++ sets (w_extra w' (c_extra c)))))).
    { assert (Dr : same_map (drafted (w_win w) base (vars ++ cmds ++ extra)) (drafted (w_win w') base (vars ++ cmds ++ sets (w_extra w' (c_extra c))))).
      { rewrite Ex, <- (proj1 Hp), !app_assoc. apply drafted_order.
        - rewrite (O2 (c_extra c)). symmetry. apply O2'.
        - eapply Permutation_NoDup; [|exact N]. apply Permutation_map, Permutation_sym, O2. }
      unfold finished. apply normalize_order; [apply Hp|exact O3|exact O3'| |].
      - rewrite <- (proj1 Hp) in *. apply unset_order. apply pathmods_order; [exact Hp|exact Dr].
      - intros x Hx Hpl. apply H1; [|exact Hpl]. destruct (text_eq_dec x (T "PATH")) as [->|Hn]; [right; right; destruct (w_win w); reflexivity|].
        apply drafted_keys. rewrite <- (aget_pathmods w c ps _ x Hn).
        match type of Hx with aget x (fold_left _ _ ?m) <> None => destruct (aget_unset (w_win w) (c_unset c) m x) as [U1 U2] end.
        destruct (in_dec text_eq_dec x (map (environment_key (w_win w)) (c_unset c))) as [Hi|Hi]; [rewrite (U1 Hi) in Hx; congruence|]. rewrite <- (U2 Hi). exact Hx. }
    cbn [agree]. split.
    + intros x. destruct (live_exists (others cmds)) as [r Hr]. destruct (on_var_exists x r) as [q Hq].
      rewrite (vars_after _ _ _ r x q Hr Hq), (vars_after _ _ _ r x q Hr Hq). cbn [set_vars e_vars]. rewrite (M x), (proj1 Hp). reflexivity.
    + rewrite (proj1 Hp). apply apply_alike. repeat split.
  - destruct (generate w' c base ps) as [e'|] eqn:E'; [|exact I]. exfalso.
    assert (X : generate w' c base ps <> None) by congruence. apply generate_some in X as (vars & cmds & extra & Hsc).
    pose proof (script_order w' w c ps vars cmds extra O1' O1 Hs Hsc) as Hsc'.
    assert (Y : generate w c base ps <> None) by (apply generate_some; eauto). congruence.
Qed.

(** ** Base environments *)
Definition put_all (win : bool) (l acc : list (text * text)) : list (text * text) :=
  fold_left (fun acc (kv : text * text) => aput (environment_key win (fst kv)) (snd kv) acc) l acc.
Lemma put_all_last win l : forall acc x,
  aget x (put_all win l acc) = match find (fun kv => text_eqb (environment_key win (fst kv)) x) (rev l) with Some kv => Some (snd kv) | None => aget x acc end.
Proof.
  induction l as [|kv l IH]; intros acc x; [reflexivity|]. unfold put_all in *. cbn [fold_left rev]. rewrite IH.
  assert (F : forall (f : text * text -> bool) a b, find f (a ++ b) = match find f a with Some y => Some y | None => find f b end).
  { intros f a b. induction a as [|y a IHa]; [reflexivity|]. cbn. destruct (f y); [reflexivity|exact IHa]. }
  rewrite F. destruct (find _ (rev l)); [reflexivity|]. cbn [find]. destruct (text_eqb_spec (environment_key win (fst kv)) x) as [<-|Hn].
  - apply aget_put_same.
  - apply aget_put_other. congruence.
Qed.
Lemma base_unix ord m : any_order ord -> NoDup (akeys m) -> same_map (base_environment false ord m) m.
Proof.
  intros Ho N x. unfold base_environment. fold (put_all false (ord m) []). rewrite put_all_last. cbn [environment_key].
  destruct (find _ (rev (ord m))) as [[k v]|] eqn:E.
  - apply find_some in E as [Hi Ek]. cbn [fst snd] in *. destruct (text_eqb_spec k x); [subst k|discriminate]. apply in_rev in Hi.
    apply (Permutation_in _ (Ho m)) in Hi. symmetry. apply aget_nodup; assumption.
  - cbn [aget]. symmetry. apply aget_none. intros Hi. apply in_map_iff in Hi as [[k v] [Ek Hi]]. cbn in Ek. subst k.
    apply (Permutation_in _ (Permutation_sym (Ho m))) in Hi. apply in_rev in Hi. apply (find_none _ _ E) in Hi. cbn [fst] in Hi. rewrite text_eqb_refl in Hi. discriminate.
Qed.
Lemma base_cmp_TPO : TPO (fun _ => True) base_cmp.
Proof.
  pose proof TPO_text as H. split.
  - intros x _. unfold base_cmp. rewrite (tpo_refl _ _ H) by exact I. destruct (text_eqb _ _); reflexivity.
  - intros x y _ _. unfold base_cmp. rewrite (tpo_anti _ _ H (upper (fst x)) (upper (fst y))) by exact I.
    destruct (text_cmp (upper (fst x)) (upper (fst y))); cbn [CompOpp]; try reflexivity. destruct (text_eqb (fst x) _), (text_eqb (fst y) _); reflexivity.
  - intros x y z _ _ _. unfold base_cmp.
    destruct (text_cmp (upper (fst x)) (upper (fst y))) eqn:E1; [|intros _|congruence].
    + apply text_cmp_eq in E1. rewrite E1. destruct (text_cmp (upper (fst y)) (upper (fst z))) eqn:E2; [|intros; discriminate|congruence].
      apply text_cmp_eq in E2. rewrite E2. destruct (text_eqb (fst x) _), (text_eqb (fst y) _), (text_eqb (fst z) _); congruence.
    + destruct (text_cmp (upper (fst y)) (upper (fst z))) eqn:E2; [|intros _|congruence].
      * apply text_cmp_eq in E2. rewrite <- E2, E1. intros _. discriminate.
      * rewrite (tpo_lt_le_trans H (upper (fst x)) (upper (fst y)) (upper (fst z)) I I I E1) by congruence. discriminate.
Qed.
Lemma find_split {A} (f : A -> bool) l y : find f l = Some y -> exists a b, l = a ++ y :: b /\ f y = true /\ forall z, In z a -> f z = false.
Proof.
  induction l as [|x l IH]; [discriminate|]. cbn. destruct (f x) eqn:E.
  - intros [= <-]. exists [], l. repeat split; auto. intros z [].
  - intros H. destruct (IH H) as (a & b & -> & Hy & Ha). exists (x :: a), b. repeat split; auto. intros z [<-|Hz]; auto.
Qed.
Lemma base_windows ord m x v : any_order ord -> NoDup (akeys m) ->
  aget x (base_environment true ord m) = Some v ->
  exists k, In (k, v) m /\ upper k = x /\ (forall u, In (x, u) m -> upper x = x -> u = v).
Proof.
  intros Ho N. unfold base_environment. cbv iota. fold (put_all true (sort_by base_cmp (ord m)) []). rewrite put_all_last. cbn [environment_key aget].
  destruct (find _ _) as [[k u]|] eqn:E; [|discriminate]. intros [= ->].
  assert (Pm : forall kv, In kv (sort_by base_cmp (ord m)) <-> In kv m).
  { intros kv. rewrite sort_in. split; apply Permutation_in; [|apply Permutation_sym]; apply Ho. }
  apply find_split in E as (a & b & Er & Ek & Ha). cbn [fst] in Ek. destruct (text_eqb_spec (upper k) x) as [Ex|]; [|discriminate].
  assert (Hi : In (k, v) m). { apply Pm, in_rev. rewrite Er. apply in_app_iff. right. left. reflexivity. }
  exists k. split; [exact Hi|]. split; [exact Ex|]. intros u Hu Hc.
  destruct (text_eq_dec k x) as [->|Hn].
  - apply aget_nodup in Hu; [|exact N]. apply aget_nodup in Hi; [|exact N]. congruence.
  - exfalso. assert (K : In (x, u) (rev (sort_by base_cmp (ord m)))) by (rewrite <- in_rev; apply Pm, Hu).
    rewrite Er in K. apply in_app_iff in K as [K|[K|K]].
    + apply Ha in K. cbn [fst] in K. rewrite Hc, text_eqb_refl in K. discriminate.
    + congruence.
    + pose proof (sort_sorted base_cmp _ base_cmp_TPO (ord m) ltac:(apply Forall_forall; auto)) as Hs.
      apply (f_equal (@rev _)) in Er. rewrite rev_involutive, rev_app_distr in Er. cbn [rev] in Er.
      apply in_rev in K. apply in_split in K as (b1 & b2 & Eb). rewrite Eb in Er. rewrite <- !app_assoc in Er. cbn [app] in Er.
      assert (G : base_cmp (x, u) (k, v) <> Gt). { eapply (Hs b1 (x, u) b2 (k, v) (rev a)). rewrite Er. rewrite <- ?app_assoc. reflexivity. }
      apply G. unfold base_cmp. cbn [fst]. rewrite Ex, Hc, (tpo_refl _ _ TPO_text), text_eqb_refl by exact I.
      destruct (text_eqb_spec k x); [contradiction|reflexivity].
Qed.
Lemma base_windows_some ord m k v : any_order ord -> In (k, v) m -> exists u, aget (upper k) (base_environment true ord m) = Some u.
Proof.
  intros Ho Hi. unfold base_environment. cbv iota. fold (put_all true (sort_by base_cmp (ord m)) []). rewrite put_all_last. cbn [environment_key aget].
  destruct (find _ _) as [[k' u]|] eqn:E; [exists u; reflexivity|]. exfalso.
  assert (K : In (k, v) (rev (sort_by base_cmp (ord m)))).
  { rewrite <- in_rev. apply sort_in. apply (Permutation_in _ (Permutation_sym (Ho m)) Hi). }
  apply (find_none _ _ E) in K. cbn [fst] in K. rewrite text_eqb_refl in K. discriminate.
Qed.
