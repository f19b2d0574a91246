(** Proofs about the finished environment: search path, reset variables, independence of orders. *)
From Verif Require Import Base Base_lemmas Text_lemmas Maps Sorting Order_spec Version_model Package_model Requirement_model.
From Verif Require Import Rex_model Rex_spec Rex_proofs Rex_parse Env_model Env_spec Env_proofs Env_gen.
Open Scope char_scope.

(** ** The steps after the commands *)
Lemma key_path win : environment_key win (T "PATH") = T "PATH". Proof. destruct win; reflexivity. Qed.
Lemma pathlike_path : pathlike (T "PATH"). Proof. reflexivity. Qed.
Lemma aget_unset win ns : forall m x, 
  (In x (map (environment_key win) ns) -> aget x (fold_left (fun (m : list (text * text)) n => adel (environment_key win n) m) ns m) = None) /\
  (~ In x (map (environment_key win) ns) -> aget x (fold_left (fun (m : list (text * text)) n => adel (environment_key win n) m) ns m) = aget x m).
Proof.
  induction ns as [|n ns IH]; intros m x; [split; [intros []|reflexivity]|]. cbn [map fold_left In].
  destruct (IH (adel (environment_key win n) m) x) as [H1 H2]. split.
  - intros H. destruct (in_dec text_eq_dec x (map (environment_key win) ns)) as [Hi|Hi]; [apply H1, Hi|].
    rewrite (H2 Hi). destruct H as [<-|H]; [apply aget_del_same|contradiction].
  - intros H. rewrite H2 by tauto. apply aget_del_other. intros ->. tauto.
Qed.
Lemma aget_pathmods w c ps m x : x <> T "PATH" -> aget x (path_modifications w c ps m) = aget x m.
Proof.
  intros H. unfold path_modifications. rewrite key_path. destruct (c_strategy c); try reflexivity; destruct (is_nil _); try reflexivity; apply aget_put_other, H.
Qed.
Lemma path_key_like w m : any_order (w_keys w) -> pathlike (path_key w m).
Proof.
  intros Ho. unfold path_key. destruct (find _ _) as [kv|] eqn:E; [|rewrite key_path; reflexivity]. apply find_some in E as [_ E]. apply same_nocase_path, E.
Qed.
Lemma aget_normalize w m x : any_order (w_keys w) -> ~ pathlike x -> aget x (normalize w m) = aget x m.
Proof.
  intros Ho Hx. unfold normalize. destruct (aget (path_key w m) m); [|reflexivity]. apply aget_put_other. intros ->. apply Hx, path_key_like, Ho.
Qed.
Lemma normalize_path w m : any_order (w_keys w) -> (forall x, aget x m <> None -> pathlike x -> x = T "PATH") ->
  aget (T "PATH") (normalize w m) = match aget (T "PATH") m with Some v => Some (normal_path (w_win w) v) | None => None end.
Proof.
  intros Ho Hu. unfold normalize. rewrite (path_key_one w m (T "PATH") Ho).
  - destruct (aget (T "PATH") m) eqn:E; [apply aget_put_same|exact E].
  - intros x Hx Hp. apply Hu; [|exact Hp]. apply aget_some in Hx as [v ->]. discriminate.
  - intros _. reflexivity.
  - right. symmetry. apply key_path.
Qed.
(** the remaining actions only reset variables *)
Lemma others_written x : forall l q, on_var x (others l) q -> q = [] /\ ~ In (Resetenv x) (others l) \/ (exists q', q = q' ++ [Resetenv x]) /\ In (Resetenv x) (others l).
Proof.
  assert (G : forall l q, (forall a, In a l -> assigns a = false) -> on_var x l q ->
     q = [] /\ ~ In (Resetenv x) l \/ (exists q', q = q' ++ [Resetenv x]) /\ In (Resetenv x) l).
  { intros l q Ha H. induction H as [|a l q Hw H IH|a l q Hw H IH].
    - left. split; [reflexivity|intros []].
    - right. assert (E : a = Resetenv x).
      { specialize (Ha a (or_introl eq_refl)). destruct a; cbn in Ha, Hw; try discriminate; congruence. }
      subst a. split; [|left; reflexivity]. destruct IH as [[-> _]|[[q' ->] _]]; [intros; apply Ha; right; assumption|exists []; reflexivity|].
      exists (Resetenv x :: q'). reflexivity.
    - destruct IH as [[-> K]|[[q' ->] K]]; [intros; apply Ha; right; assumption| |].
      + left. split; [reflexivity|]. intros [->|Hi]; [apply Hw; reflexivity|contradiction].
      + right. split; [exists q'; reflexivity|right; exact K]. }
  intros l q. apply G. intros a Ha. apply filter_In in Ha as [_ Ha]. apply negb_true_iff, Ha.
Qed.
Lemma live_in l p : live l p -> forall a, In a p -> In a l.
Proof. induction 1; intros b Hb; [exact Hb|destruct Hb as [->|[]]; left; reflexivity|]. destruct Hb as [->|Hb]; [left; reflexivity|right; auto]. Qed.
Lemma others_live l p : live (others l) p -> exists l', p = others l'.
Proof.
  intros H. exists p. unfold others. symmetry. apply filter_id. intros a Ha. apply (live_in _ _ H) in Ha. apply filter_In in Ha. tauto.
Qed.
Lemma reset_after win m l r x : live (others l) r ->
  (In (Resetenv x) r -> aget x (e_vars (apply win (set_vars no_renv m) (others l))) = None) /\
  (~ In (Resetenv x) r -> aget x (e_vars (apply win (set_vars no_renv m) (others l))) = aget x m).
Proof.
  intros H. destruct (on_var_exists x r) as [q Hq]. rewrite (vars_after win (set_vars no_renv m) _ r x q H Hq). destruct (others_live _ _ H) as [l' El].
  rewrite El in Hq. cbn [set_vars e_vars]. destruct (others_written x l' q Hq) as [[-> K]|[[q' ->] K]]; rewrite <- El in K; split; intros Hr; try contradiction; try reflexivity.
  rewrite fold_left_app. reflexivity.
Qed.

(** ** Ordinary variables *)
Lemma finished_other w c ps m x : any_order (w_keys w) -> ~ pathlike x ->
  (In x (map (environment_key (w_win w)) (c_unset c)) -> aget x (finished w c ps m) = None) /\
  (~ In x (map (environment_key (w_win w)) (c_unset c)) -> aget x (finished w c ps m) = aget x m).
Proof.
  intros Ho Hx. unfold finished. rewrite aget_normalize by assumption.
  destruct (aget_unset (w_win w) (c_unset c) (path_modifications w c ps m) x) as [H1 H2]. split; [exact H1|]. intros H. rewrite (H2 H).
  apply aget_pathmods. intros ->. apply Hx. reflexivity.
Qed.
Lemma env_var w c base ps vars cmds extra e x q r :
  any_order (w_keys w) -> script w c ps vars cmds extra -> generate w c base ps = Some e ->
  on_var x (map (keyed (w_win w)) (filter assigns (vars ++ cmds ++ extra))) q -> live (others cmds) r -> ~ pathlike x ->
  (In (Resetenv x) r \/ In x (map (environment_key (w_win w)) (c_unset c)) -> aget x (e_vars e) = None) /\
  (~ In (Resetenv x) r -> ~ In x (map (environment_key (w_win w)) (c_unset c)) ->
   aget x (e_vars e) = fold_left (written (path_sep (w_win w))) q (aget x base)).
Proof.
  intros Ho Hs Hg Hq Hl Hx. rewrite (generate_script _ _ _ _ _ _ _ Hs) in Hg. injection Hg as <-.
  destruct (reset_after (w_win w) (finished w c ps (drafted (w_win w) base (vars ++ cmds ++ extra))) cmds r x Hl) as [R1 R2].
  destruct (finished_other w c ps (drafted (w_win w) base (vars ++ cmds ++ extra)) x Ho Hx) as [F1 F2]. split.
  - intros H. destruct (in_dec (fun a b : action => ltac:(repeat decide equality) : {a = b} + {a <> b}) (Resetenv x) r) as [Hr|Hr]; [apply R1, Hr|].
    rewrite (R2 Hr). apply F1. tauto.
  - intros Hr Hu. rewrite (R2 Hr), (F2 Hu). apply drafted_var, Hq.
Qed.

(** ** The search path *)
Lemma drafted_keys win base acts x : aget x (drafted win base acts) <> None -> mentioned win base acts x.
Proof.
  intros H. destruct (on_var_exists x (map (keyed win) (filter assigns acts))) as [q Hq]. rewrite (drafted_var win base acts x q Hq) in H.
  destruct q as [|a q].
  - left. apply aget_some. destruct (aget x base) as [v|]; [eauto|exfalso; apply H; reflexivity].
  - right. left. assert (Hi : In a (map (keyed win) (filter assigns acts)) /\ writes a = Some x).
    { clear H. remember (a :: q) as aq eqn:Eq. revert a q Eq. induction Hq as [|b l p Hw Hq IH|b l p Hw Hq IH]; intros a q Eq; [discriminate| |].
      - injection Eq as -> _. split; [left; reflexivity|exact Hw].
      - destruct (IH a q Eq) as [H1 H2]. split; [right; exact H1|exact H2]. }
    destruct Hi as [Hi Hw]. apply in_map_iff in Hi as [b [<- Hb]]. apply filter_In in Hb as [Hb Ha]. exists b. auto.
Qed.
Lemma tool_dirs_exists w ps : exists ds, tool_dirs w ps ds.
Proof.
  induction ps as [|p ps [ds IH]]; [exists []; constructor|]. assert (D : ep_tools p = [] \/ ep_tools p <> []) by (destruct (ep_tools p); [left; reflexivity|right; discriminate]).
  destruct D as [E|E]; [exists ds; apply dirs_none; assumption|].
  exists (tool_path w p :: ds). apply dirs_some; [|exact IH]. split; [exact E|]. unfold tool_path, package_root, tool_extensions. cbv zeta.
  match goal with |- context [if @existsb ?A ?f ?l then _ else _] => destruct (@existsb A f l) eqn:X end.
  - left. split; [|reflexivity]. apply existsb_exists in X as [t' [Ht X]]. apply existsb_exists in X as [e [He X]]. exists t', e. auto.
  - right. split; [|reflexivity]. intros t' e Ht He. destruct (w_file w _) eqn:F; [|reflexivity]. exfalso.
    rewrite <- not_true_iff_false in X. apply X.
    apply existsb_exists. exists t'. split; [exact Ht|]. apply existsb_exists. exists e. split; [exact He|exact F].
Qed.
Lemma tools_in_path w p d : tools_in w p d -> ep_tools p <> [] /\ d = tool_path w p.
Proof.
  intros [Hn H]. split; [exact Hn|]. unfold tool_path, package_root, tool_extensions. cbv zeta. match goal with |- context [if @existsb ?A ?f ?l then _ else _] => destruct (@existsb A f l) eqn:X end.
  - destruct H as [[_ ->]|[H ->]]; [reflexivity|]. exfalso. apply existsb_exists in X as [t' [Ht X]]. apply existsb_exists in X as [e [He X]].
    rewrite (H t' e Ht He) in X. discriminate.
  - destruct H as [[(t & e & Ht & He & F) ->]|[_ ->]]; [|reflexivity]. exfalso. rewrite <- not_true_iff_false in X. apply X.
    apply existsb_exists. exists t. split; [exact Ht|]. apply existsb_exists. exists e. split; [exact He|exact F].
Qed.
(** the directories not yet listed *)
Fixpoint fresh (acc : list text) (l : list text) : list text :=
  match l with [] => [] | d :: l' => if mem_text d acc then fresh acc l' else d :: fresh (acc ++ [d]) l' end.
Definition one_tool (d : text) (acc : list text) : list text := if mem_text d acc then acc else acc ++ [d].
Lemma tools_once d (ts : list text) : forall acc, In d acc -> fold_left (fun acc (_ : text) => one_tool d acc) ts acc = acc.
Proof.
  induction ts as [|t ts IH]; intros acc H; [reflexivity|]. cbn [fold_left]. unfold one_tool at 2. rewrite (proj2 (mem_text_in d acc) H). apply IH, H.
Qed.
Lemma tool_paths_fresh w ps ds : tool_dirs w ps ds -> forall acc,
  fold_left (fun acc p => fold_left (fun acc (_ : text) => one_tool (tool_path w p) acc) (ep_tools p) acc) ps acc = acc ++ fresh acc ds.
Proof.
  induction 1 as [|p ps ds Hn H IH|p ps d ds Ht H IH]; intros acc.
  - cbn. rewrite app_nil_r. reflexivity.
  - cbn [fold_left]. rewrite Hn. cbn [fold_left]. apply IH.
  - apply tools_in_path in Ht as [Hn ->]. cbn [fold_left fresh]. destruct (ep_tools p) as [|t ts]; [congruence|]. cbn [fold_left].
    rewrite tools_once.
    + unfold one_tool. destruct (mem_text (tool_path w p) acc); rewrite IH; [reflexivity|]. rewrite <- app_assoc. reflexivity.
    + unfold one_tool. destruct (mem_text (tool_path w p) acc) eqn:E; [apply mem_text_in, E|apply in_app_iff; right; left; reflexivity].
Qed.
Lemma tool_paths_spec w ps ds : tool_dirs w ps ds -> tool_paths w ps = fresh [] ds.
Proof. intros H. exact (tool_paths_fresh w ps ds H []). Qed.
Lemma fresh_in ds : forall acc d, In d (acc ++ fresh acc ds) <-> In d (acc ++ ds).
Proof.
  induction ds as [|e ds IH]; intros acc d; [reflexivity|]. cbn [fresh]. destruct (mem_text e acc) eqn:E.
  - rewrite IH, !in_app_iff. cbn [In]. apply mem_text_in in E. split; [tauto|]. intros [H|[<-|H]]; auto.
  - specialize (IH (acc ++ [e]) d). rewrite <- !app_assoc in IH. exact IH.
Qed.
Lemma unseen_app win a b : forall s, unseen win s (a ++ b) = unseen win s a ++ unseen win (rev (map (identity win) a) ++ s) b.
Proof.
  induction a as [|e a IH]; intros s; [reflexivity|]. cbn [app unseen]. destruct (mem_text (identity win e) s) eqn:E.
  - rewrite IH. f_equal. apply unseen_ext. intros x _. rewrite !in_app_iff. cbn [map rev]. rewrite in_app_iff. cbn [In].
    apply mem_text_in in E. split; [tauto|]. intros [[H|[<-|[]]]|H]; auto.
  - cbn [app]. f_equal. rewrite IH. f_equal. apply unseen_ext. intros x _. cbn [map rev]. rewrite !in_app_iff. cbn [In]. tauto.
Qed.
Lemma unseen_known win a s : (forall e, In e a -> In (identity win e) s) -> unseen win s a = [].
Proof.
  induction a as [|e a IH]; intros H; [reflexivity|]. cbn [unseen]. rewrite (proj2 (mem_text_in _ s) (H e (or_introl eq_refl))). apply IH. intros x Hx. apply H. right. exact Hx.
Qed.
Lemma unseen_fresh win sp ds : forall acc s, (forall d e, In d acc -> In e (split_on sp d) -> In (identity win e) s) ->
  unseen win s (flat_map (split_on sp) (fresh acc ds)) = unseen win s (flat_map (split_on sp) ds).
Proof.
  induction ds as [|d ds IH]; intros acc s H; [reflexivity|]. cbn [fresh flat_map]. destruct (mem_text d acc) eqn:E.
  - rewrite unseen_app. apply mem_text_in in E. rewrite (unseen_known win (split_on sp d) s) by (intros e He; apply (H d e E He)). cbn [app]. rewrite (IH acc s H). apply unseen_ext.
    intros x _. rewrite in_app_iff, <- in_rev. split; [tauto|]. intros [K|K]; [|exact K]. apply in_map_iff in K as [y [<- Hy]]. apply (H d y E Hy).
  - cbn [flat_map]. rewrite !unseen_app. f_equal. apply IH. intros d' e Hd He. apply in_app_iff. apply in_app_iff in Hd as [Hd|[<-|[]]].
    + right. apply (H d' e Hd He).
    + left. rewrite <- in_rev. apply in_map, He.
Qed.
Lemma unseen_fresh_front win sp ds cur : unseen win [] (flat_map (split_on sp) (fresh [] ds) ++ cur) = unseen win [] (flat_map (split_on sp) ds ++ cur).
Proof.
  rewrite !unseen_app, unseen_fresh by (intros d e []). f_equal. apply unseen_ext. intros x _. rewrite !in_app_iff, <- !in_rev.
  assert (K : forall y, In y (map (identity win) (flat_map (split_on sp) (fresh [] ds))) <-> In y (map (identity win) (flat_map (split_on sp) ds))).
  { intros y. rewrite !in_map_iff. split; intros [z [Ez Hz]]; exists z; (split; [exact Ez|]); apply in_flat_map in Hz as [d [Hd Hz]]; apply in_flat_map; exists d;
      (split; [|exact Hz]); apply (fresh_in ds [] d), Hd. }
  rewrite K. reflexivity.
Qed.
Lemma unseen_fresh_back win sp ds cur : unseen win [] (cur ++ flat_map (split_on sp) (fresh [] ds)) = unseen win [] (cur ++ flat_map (split_on sp) ds).
Proof. rewrite !unseen_app. f_equal. apply unseen_fresh. intros d e []. Qed.
Lemma split_join_all sp l : l <> [] -> split_on sp (join [sp] l) = flat_map (split_on sp) l.
Proof.
  induction l as [|a l IH]; intros H; [congruence|]. destruct l as [|b l]; [cbn; rewrite app_nil_r; reflexivity|].
  rewrite join_cons by discriminate. cbn [flat_map]. change (a ++ [sp] ++ join [sp] (b :: l)) with (a ++ sp :: join [sp] (b :: l)).
  rewrite split_on_app_gen. f_equal. apply IH. discriminate.
Qed.
Lemma fresh_nil ds : fresh [] ds = [] <-> ds = [].
Proof. split; [|intros ->; reflexivity]. destruct ds; [reflexivity|]. discriminate. Qed.
Lemma flat_split_nil sp ds : flat_map (split_on sp) ds = [] <-> ds = [].
Proof.
  split; [|intros ->; reflexivity]. destruct ds as [|d ds]; [reflexivity|]. cbn. intros H. apply app_eq_nil in H as [H _]. destruct (split_on_nonnil _ _ H).
Qed.
(** the entries of the new path before duplicates go *)
Lemma path_entries w c ps ds m : tool_dirs w ps ds ->
  let sp := sep_char (w_win w) in
  (aget (T "PATH") m = None -> ds = [] \/ c_strategy c = NoModify -> aget (T "PATH") (path_modifications w c ps m) = None) /\
  (aget (T "PATH") m <> None \/ ds <> [] /\ c_strategy c <> NoModify ->
   exists v, aget (T "PATH") (path_modifications w c ps m) = Some v /\
     normal_path (w_win w) v = join [sp] (unseen (w_win w) [] (with_dirs (c_strategy c) (flat_map (split_on sp) ds) (entries sp (aget (T "PATH") m))))).
Proof.
  intros Hd sp. unfold path_modifications. rewrite key_path, (tool_paths_spec w ps ds Hd), path_sep_char. fold sp.
  assert (Keep : forall v, aget (T "PATH") m = Some v -> normal_path (w_win w) v = join [sp] (unseen (w_win w) [] (entries sp (aget (T "PATH") m)))).
  { intros v ->. unfold normal_path. rewrite path_sep_char. fold sp. destruct v as [|x v]; reflexivity. }
  assert (New : forall v l, split_on sp v = l -> normal_path (w_win w) v = join [sp] (unseen (w_win w) [] l)).
  { intros v l <-. unfold normal_path. rewrite path_sep_char. reflexivity. }
  assert (Z : is_nil (fresh [] ds) = true <-> ds = []).
  { rewrite <- fresh_nil. destruct (fresh [] ds); split; (reflexivity || discriminate). }
  split.
  - intros Hm [->|Hs]; [|rewrite Hs; exact Hm]. destruct (c_strategy c); cbn [fresh is_nil]; exact Hm.
  - intros H. destruct ds as [|d ds'] eqn:Eds.
    + destruct H as [H|[H _]]; [|congruence]. destruct (aget (T "PATH") m) as [v|] eqn:E; [|congruence]. exists v. split; [destruct (c_strategy c); exact E|].
      assert (W : with_dirs (c_strategy c) (flat_map (split_on sp) []) (entries sp (Some v)) = entries sp (Some v)) by reflexivity.
      rewrite W. apply Keep. reflexivity.
    + rewrite <- Eds in *. assert (Nd : ds <> []) by (rewrite Eds; discriminate). clear Eds d ds'.
      assert (En : is_nil (fresh [] ds) = false) by (apply not_true_iff_false; intros K; apply Z in K; contradiction). rewrite En.
      assert (Nf : fresh [] ds <> []) by (rewrite fresh_nil; exact Nd).
      assert (Nff : flat_map (split_on sp) ds <> []) by (rewrite flat_split_nil; exact Nd).
      assert (W : with_dirs (c_strategy c) (flat_map (split_on sp) ds) (entries sp (aget (T "PATH") m)) =
        match c_strategy c with NoModify => entries sp (aget (T "PATH") m) | Prepend => flat_map (split_on sp) ds ++ entries sp (aget (T "PATH") m)
        | Append => entries sp (aget (T "PATH") m) ++ flat_map (split_on sp) ds | Replace => flat_map (split_on sp) ds end).
      { unfold with_dirs. destruct (flat_map (split_on sp) ds); [congruence|]. destruct (c_strategy c); reflexivity. }
      rewrite W. clear W.
      assert (Sj : split_on sp (join [sp] (fresh [] ds)) = flat_map (split_on sp) (fresh [] ds)) by (apply split_join_all, Nf).
      destruct (c_strategy c) eqn:Ec.
      * eexists. split; [apply aget_put_same|]. rewrite <- unseen_fresh_front. apply New. destruct (aget (T "PATH") m) as [[|x v]|]; cbn [or_empty is_nil entries].
        -- rewrite app_nil_r. exact Sj.
        -- change (join [sp] (fresh [] ds) ++ [sp] ++ x :: v) with (join [sp] (fresh [] ds) ++ sp :: x :: v). rewrite split_on_app_gen, Sj. reflexivity.
        -- rewrite app_nil_r. exact Sj.
      * eexists. split; [apply aget_put_same|]. rewrite <- unseen_fresh_back. apply New. destruct (aget (T "PATH") m) as [[|x v]|]; cbn [or_empty is_nil entries].
        -- exact Sj.
        -- change ((x :: v) ++ [sp] ++ join [sp] (fresh [] ds)) with ((x :: v) ++ sp :: join [sp] (fresh [] ds)). rewrite split_on_app_gen, Sj. reflexivity.
        -- exact Sj.
      * eexists. split; [apply aget_put_same|]. rewrite <- (app_nil_r (flat_map _ ds)), <- unseen_fresh_front, app_nil_r. apply New, Sj.
      * destruct H as [H|[_ H]]; [|congruence]. destruct (aget (T "PATH") m) as [v|] eqn:E; [|congruence]. exists v. split; [reflexivity|]. apply Keep. reflexivity.
Qed.
Lemma env_path w c base ps vars cmds extra e q r ds :
  any_order (w_keys w) -> script w c ps vars cmds extra -> generate w c base ps = Some e ->
  one_path (w_win w) base (vars ++ cmds ++ extra) -> tool_dirs w ps ds ->
  on_var (T "PATH") (map (keyed (w_win w)) (filter assigns (vars ++ cmds ++ extra))) q -> live (others cmds) r ->
  ~ In (Resetenv (T "PATH")) r -> ~ In (T "PATH") (map (environment_key (w_win w)) (c_unset c)) ->
  let before := fold_left (written (path_sep (w_win w))) q (aget (T "PATH") base) in
  let sp := sep_char (w_win w) in
  (before = None -> ds = [] \/ c_strategy c = NoModify -> aget (T "PATH") (e_vars e) = None) /\
  (before <> None \/ ds <> [] /\ c_strategy c <> NoModify -> exists k,
     firsts (fold_entry (w_win w)) (with_dirs (c_strategy c) (flat_map (split_on sp) ds) (entries sp before)) k /\
     aget (T "PATH") (e_vars e) = Some (join [sp] k)).
Proof.
  intros Ho Hs Hg H1 Hd Hq Hl Hr Hu before sp. rewrite (generate_script _ _ _ _ _ _ _ Hs) in Hg. injection Hg as <-.
  set (m := drafted (w_win w) base (vars ++ cmds ++ extra)).
  destruct (reset_after (w_win w) (finished w c ps m) cmds r (T "PATH") Hl) as [_ R2]. rewrite (R2 Hr). clear R2.
  assert (Eb : aget (T "PATH") m = before) by apply drafted_var, Hq.
  unfold finished. rewrite normalize_path; [|exact Ho|].
  2: { intros x Hx Hp. apply H1; [|exact Hp]. destruct (text_eq_dec x (T "PATH")) as [->|Hn]; [right; right; destruct (w_win w); reflexivity|].
       apply drafted_keys. fold m. rewrite <- (aget_pathmods w c ps m x Hn). destruct (aget_unset (w_win w) (c_unset c) (path_modifications w c ps m) x) as [U1 U2].
       destruct (in_dec text_eq_dec x (map (environment_key (w_win w)) (c_unset c))) as [Hi|Hi]; [rewrite (U1 Hi) in Hx; congruence|]. rewrite <- (U2 Hi). exact Hx. }
  destruct (aget_unset (w_win w) (c_unset c) (path_modifications w c ps m) (T "PATH")) as [_ U2]. rewrite (U2 Hu).
  destruct (path_entries w c ps ds m Hd) as [P1 P2]. rewrite Eb in P1, P2. split.
  - intros Hb Hc. rewrite (P1 Hb Hc). reflexivity.
  - intros Hb. destruct (P2 Hb) as (v & -> & En). eexists. split; [apply unseen_spec|]. f_equal. exact En.
Qed.
