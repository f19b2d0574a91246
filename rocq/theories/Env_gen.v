(** Proofs about the order in which a generated environment is made. *)
From Coq Require Import Sorted.
From Verif Require Import Base Base_lemmas Text_lemmas Maps Sorting Order_spec Version_model Package_model Requirement_model.
From Verif Require Import Rex_model Rex_spec Rex_proofs Rex_parse Env_model Env_spec Env_proofs.
Open Scope char_scope.

Definition strip (d : env_def) : text * env_op := (d_name d, d_op d).
Definition defs_of (win : bool) (l : list action) : list (text * env_op) :=
  flat_map (fun a => match action_def win a with Some p => [p] | None => [] end) l.
Definition prios (d : list env_def) : list nat := map d_priority d.
Definition between (lo hi : nat) (d : list env_def) : Prop := StronglySorted le (prios d) /\ forall n, In n (prios d) -> lo <= n < hi.

Lemma sorted_app l l' : StronglySorted le l -> StronglySorted le l' -> (forall a b, In a l -> In b l' -> a <= b) -> StronglySorted le (l ++ l').
Proof.
  intros H H' K. induction H as [|a l H IH F]; [exact H'|]. cbn. constructor.
  - apply IH. intros x y Hx Hy. apply K; [right|]; assumption.
  - apply Forall_app. split; [exact F|]. apply Forall_forall. intros y Hy. apply K; [left; reflexivity|exact Hy].
Qed.
Lemma between_app lo mi hi d d' : lo <= mi -> mi <= hi -> between lo mi d -> between mi hi d' -> between lo hi (d ++ d').
Proof.
  intros L1 L2 [S1 B1] [S2 B2]. unfold between, prios in *. rewrite map_app. split.
  - apply sorted_app; [exact S1|exact S2|]. intros a b Ha Hb. apply B1 in Ha. apply B2 in Hb. lia.
  - intros n Hn. apply in_app_iff in Hn as [Hn|Hn]; [apply B1 in Hn|apply B2 in Hn]; lia.
Qed.
Lemma between_nil lo hi : between lo hi [].
Proof. split; [constructor|intros n []]. Qed.
Lemma between_const p lo d : (forall n, In n (prios d) -> n = p) -> lo = p -> between lo (S lo) d.
Proof.
  intros H ->. split; [|intros n Hn; rewrite (H n Hn); lia].
  assert (F : forall l : list nat, (forall n, In n l -> n = p) -> StronglySorted le l).
  { induction l as [|a l IH]; intros K; constructor; [apply IH; intros; apply K; right; assumption|]. apply Forall_forall. intros b Hb.
    rewrite (K a (or_introl eq_refl)), (K b (or_intror Hb)). apply le_n. }
  apply F, H.
Qed.
Lemma by_priority_sorted l : StronglySorted le (prios l) -> by_priority l = l.
Proof.
  induction l as [|d l IH]; intros H; [reflexivity|]. unfold prios in H. cbn [map] in H. inversion H as [|? ? H1 H2]; subst.
  unfold by_priority in *. cbn [sort_by]. rewrite (IH H1). destruct l as [|e l]; [reflexivity|]. cbn [insert_by].
  cbn in H2. inversion H2 as [|? ? H3 _]; subst. destruct (Nat.compare_spec (d_priority d) (d_priority e)); try reflexivity. lia.
Qed.

Lemma split_actions_spec win name prio l :
  map strip (fst (split_actions win name prio l)) = defs_of win l /\ snd (split_actions win name prio l) = others l /\
  forall n, In n (prios (fst (split_actions win name prio l))) -> n = prio.
Proof.
  induction l as [|a l (H1 & H2 & H3)]; [cbn; intuition|].
  assert (E : split_actions win name prio (a :: l) =
    match action_def win a with
    | Some (n, op) => (mkDef n op (Some name) prio :: fst (split_actions win name prio l), snd (split_actions win name prio l))
    | None => (fst (split_actions win name prio l), a :: snd (split_actions win name prio l)) end).
  { cbn [split_actions]. destruct (split_actions win name prio l). reflexivity. }
  rewrite E. unfold defs_of, others, prios in *. cbn [flat_map filter].
  destruct a; cbn [action_def assigns negb fst snd map app]; repeat split;
    try (f_equal; assumption); try assumption; intros n' [<-|Hn]; (reflexivity || apply H3, Hn).
Qed.
Lemma package_root_eq p : package_root p = match ep_root p with Some r => r | None => T "/packages/" ++ ep_name p end.
Proof. reflexivity. Qed.
Lemma rex_effects_eq w p c prio :
  rex_effects w p c prio =
  match parse_commands c with
  | None => None
  | Some l => Some (split_actions (w_win w) (ep_name p) prio (map (expand_action (expand (w_expand w) (known p))) l))
  end.
Proof.
  unfold rex_effects, execute. unfold known, package_root.
  assert (E : x_ctx (set_context_var
        match ep_version p with
        | Some v => set_context_var (set_context_var new_exec (T "root") (match ep_root p with Some r => r | None => T "/packages/" ++ ep_name p end)) (T "version") v
        | None => set_context_var new_exec (T "root") (match ep_root p with Some r => r | None => T "/packages/" ++ ep_name p end)
        end (T "name") (ep_name p)) =
     aput (T "name") (ep_name p) (match ep_version p with
        | Some v => aput (T "version") v [(T "root", match ep_root p with Some r => r | None => T "/packages/" ++ ep_name p end)]
        | None => [(T "root", match ep_root p with Some r => r | None => T "/packages/" ++ ep_name p end)] end)) by (destruct (ep_version p); reflexivity).
  rewrite E. destruct (parse_commands c) as [l|]; [|reflexivity]. cbn [x_actions].
  assert (A : x_actions (set_context_var
        match ep_version p with
        | Some v => set_context_var (set_context_var new_exec (T "root") (match ep_root p with Some r => r | None => T "/packages/" ++ ep_name p end)) (T "version") v
        | None => set_context_var new_exec (T "root") (match ep_root p with Some r => r | None => T "/packages/" ++ ep_name p end)
        end (T "name") (ep_name p)) = []) by (destruct (ep_version p); reflexivity).
  rewrite A, app_nil_l, map_map. reflexivity.
Qed.
Lemma parse_commands_lines c l : parse_commands c = Some l <-> command_lines (split_on NL c) l.
Proof. apply parse_lines_iff. Qed.
Lemma asked_parse w p c acts : asked w p (Some c) acts <-> exists l, parse_commands c = Some l /\ acts = map (expand_action (expand (w_expand w) (known p))) l.
Proof. unfold asked. split; intros [l [H E]]; exists l; (split; [apply parse_commands_lines, H|exact E]). Qed.
Lemma asked_unique w p o a b : asked w p o a -> asked w p o b -> a = b.
Proof.
  destruct o as [c|]; [|unfold asked; congruence]. rewrite !asked_parse. intros [l [H ->]] [l' [H' ->]]. congruence.
Qed.
Lemma phase_unique w sel ps a b : phase w sel ps a -> phase w sel ps b -> a = b.
Proof.
  intros H. revert b. induction H as [|p ps a r Ha Hr IH]; intros b H'; inversion H'; subst; [reflexivity|]. f_equal; [eapply asked_unique; eassumption|auto].
Qed.
Lemma script_unique w c ps v k e v' k' e' : script w c ps v k e -> script w c ps v' k' e' -> v = v' /\ k = k' /\ e = e'.
Proof.
  intros (-> & (a1 & a2 & a3 & H1 & H2 & H3 & ->) & ->) (-> & (b1 & b2 & b3 & K1 & K2 & K3 & ->) & ->).
  repeat split. f_equal; [|f_equal]; eapply phase_unique; eassumption.
Qed.
Lemma others_app a b : others (a ++ b) = others a ++ others b. Proof. apply filter_app. Qed.
Lemma defs_app win a b : defs_of win (a ++ b) = defs_of win a ++ defs_of win b. Proof. apply flat_map_app. Qed.

Lemma run_phase_spec w sel ps acts : phase w sel ps acts -> forall prio, exists d,
  run_phase w sel ps prio = Some (d, others acts) /\ map strip d = defs_of (w_win w) acts /\ between prio (prio + length ps) d.
Proof.
  induction 1 as [|p ps a b Ha Hb IH]; intros prio; [exists []; repeat split; [constructor|destruct H|destruct H]|].
  destruct (IH (S prio)) as (d & E & S1 & B). cbn [run_phase]. rewrite E.
  assert (X : exists d0, match sel p with Some c => rex_effects w p c prio | None => Some ([], []) end = Some (d0, others a) /\
                         map strip d0 = defs_of (w_win w) a /\ between prio (Datatypes.S prio) d0).
  { destruct (sel p) as [c|] eqn:Es.
    - apply asked_parse in Ha as [l [Hl ->]]. rewrite rex_effects_eq, Hl.
      destruct (split_actions_spec (w_win w) (ep_name p) prio (map (expand_action (expand (w_expand w) (known p))) l)) as (S2 & S3 & S4).
      eexists. split; [|split; [exact S2|apply (between_const prio); [exact S4|reflexivity]]].
      rewrite <- S3. f_equal. apply surjective_pairing.
    - cbn in Ha. subst a. exists []. repeat split; [constructor|destruct H|destruct H]. }
  destruct X as (d0 & E0 & S0 & B0). rewrite E0. exists (d0 ++ d). split; [rewrite others_app; reflexivity|]. split.
  - rewrite map_app, defs_app, S0, S1. reflexivity.
  - apply (between_app prio (Datatypes.S prio)); [lia|cbn [length]; lia|exact B0|]. cbn [length]. replace (prio + Datatypes.S (length ps)) with (Datatypes.S prio + length ps) by lia. exact B.
Qed.
Lemma run_phase_some w sel ps : forall prio r, run_phase w sel ps prio = Some r -> exists acts, phase w sel ps acts.
Proof.
  induction ps as [|p ps IH]; intros prio r H; [exists []; constructor|]. cbn [run_phase] in H.
  destruct (match sel p with Some c => rex_effects w p c prio | None => Some ([], []) end) as [[d a]|] eqn:E; [|discriminate].
  destruct (run_phase w sel ps (S prio)) as [[d' a']|] eqn:E'; [|discriminate]. destruct (IH _ _ E') as [b Hb].
  assert (X : exists a, asked w p (sel p) a).
  { destruct (sel p) as [c|]; [|exists []; reflexivity]. rewrite rex_effects_eq in E. destruct (parse_commands c) as [l|] eqn:El; [|discriminate].
    eexists. apply asked_parse. exists l. split; [exact El|reflexivity]. }
  destruct X as [a0 Ha]. eexists. constructor; eassumption.
Qed.
Lemma metadata_spec w ps : forall prio,
  map strip (all_metadata ps prio) = defs_of w (flat_map package_vars ps) /\ between prio (prio + length ps) (all_metadata ps prio).
Proof.
  induction ps as [|p ps IH]; intros prio; [split; [reflexivity|apply between_nil]|]. destruct (IH (S prio)) as [H1 H2].
  cbn [all_metadata flat_map]. rewrite map_app, defs_app, H1. split.
  - f_equal. unfold metadata, package_vars, upper, package_root. destruct (ep_version p); reflexivity.
  - apply (between_app prio (S prio)); [lia|cbn [length]; lia| |cbn [length]; replace (prio + S (length ps)) with (S prio + length ps) by lia; exact H2].
    apply (between_const prio); [|reflexivity]. intros n. unfold metadata. destruct (ep_version p); cbn; intuition.
Qed.
Lemma extra_spec w c prio :
  map strip (extra_defs w c prio) = defs_of (w_win w) (map (fun kv => Setenv (fst kv) (snd kv)) (w_extra w (c_extra c))) /\
  between prio (S prio) (extra_defs w c prio).
Proof.
  unfold extra_defs. split.
  - generalize (w_extra w (c_extra c)). intros l. induction l as [|kv l IH]; [reflexivity|]. cbn. f_equal. exact IH.
  - apply (between_const prio); [|reflexivity]. intros n. unfold prios. rewrite map_map. cbn. intros H. apply in_map_iff in H as [? [<- _]]. reflexivity.
Qed.
Lemma definitions_spec w c ps vars cmds extra : script w c ps vars cmds extra -> exists d,
  definitions w c ps = Some (d, others cmds) /\ map strip d = defs_of (w_win w) (vars ++ cmds ++ extra) /\ by_priority d = d.
Proof.
  intros (-> & (a1 & a2 & a3 & H1 & H2 & H3 & ->) & ->). unfold definitions. set (n := length ps).
  destruct (run_phase_spec w _ _ _ H1 n) as (d1 & E1 & S1 & B1).
  destruct (run_phase_spec w _ _ _ H2 (n + n)) as (d2 & E2 & S2 & B2).
  destruct (run_phase_spec w _ _ _ H3 (n + n + n)) as (d3 & E3 & S3 & B3).
  cbn [run_phases]. rewrite E1. fold n. rewrite E2, E3. cbv beta iota. rewrite !app_nil_r.
  destruct (metadata_spec (w_win w) ps 0) as [S0 B0]. destruct (extra_spec w c (n + 3 * n)) as [S4 B4].
  eexists. split; [rewrite !others_app; reflexivity|]. split.
  - rewrite !map_app, !defs_app, S0, S1, S2, S3, S4, <- !app_assoc. reflexivity.
  - apply by_priority_sorted. cbn [plus] in B0. fold n in B0, B1, B2, B3.
    apply (between_app 0 n (S (n + 3 * n))); [lia|lia|exact B0|].
    apply (between_app n (n + n + n + n)); [lia|lia| |replace (n + n + n + n) with (n + 3 * n) by lia; exact B4].
    apply (between_app n (n + n)); [lia|lia|exact B1|]. apply (between_app (n + n) (n + n + n)); [lia|lia|exact B2|exact B3].
Qed.
Lemma definitions_none w c ps : definitions w c ps <> None -> exists vars cmds extra, script w c ps vars cmds extra.
Proof.
  unfold definitions. cbn [run_phases]. intros H. set (n := length ps) in *.
  destruct (run_phase w ep_pre ps n) as [[d1 s1]|] eqn:E1; [|congruence].
  destruct (run_phase w ep_commands ps (n + n)) as [[d2 s2]|] eqn:E2; [|congruence].
  destruct (run_phase w ep_post ps (n + n + n)) as [[d3 s3]|] eqn:E3; [|congruence].
  destruct (run_phase_some _ _ _ _ _ E1) as [a1 H1]. destruct (run_phase_some _ _ _ _ _ E2) as [a2 H2]. destruct (run_phase_some _ _ _ _ _ E3) as [a3 H3].
  eexists _, _, _. split; [reflexivity|]. split; [|reflexivity]. exists a1, a2, a3. repeat split; assumption.
Qed.

(** ** Definitions act like the actions they come from *)
Lemma apply_def_action win e a d n op : action_def win a = Some (n, op) -> strip d = (n, op) ->
  apply_def win (e_vars e) d = e_vars (apply_action win e (keyed win a)).
Proof.
  destruct d as [n' op' so pr]. unfold strip. cbn [d_name d_op]. intros H [= -> ->].
  destruct a; cbn in H; try discriminate H; injection H as <- <-; unfold apply_def, keyed, environment_key, upper;
    cbn [d_name d_op apply_action]; destruct win; try reflexivity; destruct (ahas _ _); reflexivity.
Qed.
Lemma assigns_def win a : assigns a = false -> action_def win a = None. Proof. destruct a; (discriminate || reflexivity). Qed.
Lemma assigns_def_some win a : assigns a = true -> exists p, action_def win a = Some p. Proof. destruct a; (discriminate || eexists; reflexivity). Qed.
Definition replay (win : bool) (acts : list action) (e : renv) : renv :=
  fold_left (apply_action win) (map (keyed win) (filter assigns acts)) e.
Lemma defs_replay win acts : forall d e, map strip d = defs_of win acts -> fold_left (apply_def win) d (e_vars e) = e_vars (replay win acts e).
Proof.
  unfold replay. induction acts as [|a acts IH]; intros d e H.
  - destruct d; [reflexivity|discriminate].
  - unfold defs_of in H. cbn [flat_map filter] in *. destruct (assigns a) eqn:E.
    + destruct (assigns_def_some win a E) as [[n op] Ep]. rewrite Ep in H. cbn [app] in H. destruct d as [|d0 d]; [discriminate|].
      cbn [map] in H. assert (H1 : strip d0 = (n, op)) by exact (f_equal (hd (n, op)) H).
      assert (H2 : map strip d = defs_of win acts) by exact (f_equal (@tl _) H).
      cbn [fold_left map]. rewrite (apply_def_action win e a d0 n op Ep H1). apply IH, H2.
    + rewrite (assigns_def win a E) in H. apply IH, H.
Qed.
(** the variables before the search path is extended *)
Definition drafted (win : bool) (base : list (text * text)) (acts : list action) : list (text * text) :=
  e_vars (replay win acts (set_vars no_renv base)).
Definition finished (w : world) (c : config) (ps : list epackage) (m : list (text * text)) : list (text * text) :=
  normalize w (fold_left (fun m n => adel (environment_key (w_win w) n) m) (c_unset c) (path_modifications w c ps m)).
Lemma generate_script w c base ps vars cmds extra : script w c ps vars cmds extra ->
  generate w c base ps = Some (apply (w_win w) (set_vars no_renv (finished w c ps (drafted (w_win w) base (vars ++ cmds ++ extra)))) (others cmds)).
Proof.
  intros H. destruct (definitions_spec _ _ _ _ _ _ H) as (d & E & S1 & B). unfold generate. rewrite E, B. unfold finished, drafted.
  rewrite <- (defs_replay (w_win w) _ d (set_vars no_renv base) S1). reflexivity.
Qed.
Lemma generate_some w c base ps : generate w c base ps <> None <-> exists vars cmds extra, script w c ps vars cmds extra.
Proof.
  split.
  - intros H. apply definitions_none with (c := c). intros E. apply H. unfold generate. rewrite E. reflexivity.
  - intros (v & k & x & H). rewrite (generate_script w c base ps v k x H). discriminate.
Qed.
Lemma on_var_app x a b p q : on_var x a p -> on_var x b q -> on_var x (a ++ b) (p ++ q).
Proof. induction 1; intros Hq; [exact Hq|cbn; constructor; auto|cbn; constructor; auto]. Qed.
Lemma on_var_unique x l p q : on_var x l p -> on_var x l q -> p = q.
Proof. intros H. revert q. induction H; intros q Hq; inversion Hq; subst; try contradiction; try congruence; [f_equal; auto|auto]. Qed.
Lemma drafted_var win base acts x q : on_var x (map (keyed win) (filter assigns acts)) q ->
  aget x (drafted win base acts) = fold_left (written (path_sep win)) q (aget x base).
Proof. intros H. unfold drafted, replay. apply (fold_var win x _ _ H). Qed.
