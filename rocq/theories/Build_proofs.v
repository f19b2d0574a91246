(** Proofs about the steps of a build, cancelling, and the manager. *)
From Verif Require Import Base Base_lemmas Text_lemmas Maps Files_model Files_spec Rex_model Rex_spec Rctx_proofs Bundle_model Bundle_spec Bundle_text Build_model Build_spec.
From Coq Require Import Lia.
Open Scope string_scope. Open Scope list_scope.

Lemma called_name s : step_name s = called s.
Proof. destruct s; reflexivity. Qed.
(** ** The steps *)
Section World.
Variable W : Type.
Variable exec : step -> W -> W * (done + text).
(** how the steps end *)
Inductive ends (ss : list step) (w : W) : list (step * done) -> W -> option (step * (done + text)) -> Prop :=
| ends_all ds w' : passes exec ss w ds w' -> ends ss w ds w' None
| ends_fail l s r ds w1 d w' : ss = l ++ s :: r -> passes exec l w ds w1 -> fails exec s w1 d w' -> ends ss w ds w' (Some (s, inl d))
| ends_err l s r ds w1 e w' : ss = l ++ s :: r -> passes exec l w ds w1 -> errs exec s w1 e w' -> ends ss w ds w' (Some (s, inr e)).
Lemma ends_cons s ss w w1 d ds w' z : exec s w = (w1, inl d) -> d_ok d = true -> ends ss w1 ds w' z -> ends (s :: ss) w ((s, d) :: ds) w' z.
Proof.
  intros E K H. destruct H as [ds w' H|l t r ds w2 d2 w' -> H F|l t r ds w2 e w' -> H F].
  - apply ends_all. econstructor; eauto.
  - eapply ends_fail with (l := s :: l); [reflexivity| |exact F]. econstructor; eauto.
  - eapply ends_err with (l := s :: l); [reflexivity| |exact F]. econstructor; eauto.
Qed.
Lemma ends_total ss : forall w, exists ds w' z, ends ss w ds w' z.
Proof.
  induction ss as [|s ss IH]; intros w; [exists [], w, None; apply ends_all; constructor|].
  destruct (exec s w) as [w1 [d|e]] eqn:E.
  - destruct (d_ok d) eqn:K.
    + destruct (IH w1) as (ds & w' & z & H). exists ((s, d) :: ds), w', z. eapply ends_cons; eauto.
    + exists [], w1, (Some (s, inl d)). eapply ends_fail with (l := []); [reflexivity|constructor|split; assumption].
  - exists [], w1, (Some (s, inr e)). eapply ends_err with (l := []); [reflexivity|constructor|exact E].
Qed.
Lemma passes_app l r w ds w1 es w2 : passes exec l w ds w1 -> passes exec r w1 es w2 -> passes exec (l ++ r) w (ds ++ es) w2.
Proof. induction 1; intros H2; [exact H2|]. cbn. econstructor; eauto. Qed.
(** the log of steps that pass *)
Definition logged (l : log) (ds : list (step * done)) : log := fold_left (fun l sd => log_step (fst sd) (snd sd) (tell (StepStarted (fst sd)) l)) ds l.
Lemma run_passed l r w ds w1 : passes exec l w ds w1 -> forall g, run_steps exec (l ++ r) w g = run_steps exec r w1 (logged g ds).
Proof.
  induction 1 as [w|s ss w w1 w2 d ds E K _ IH]; intros g; [reflexivity|]. cbn [app run_steps]. unfold one_step. rewrite E, K. cbn. rewrite IH. reflexivity.
Qed.
Lemma run_all ss w ds w1 g : passes exec ss w ds w1 -> run_steps exec ss w g = (w1, tell (BuildFinished (T "Build finished") true) (logged g ds), None).
Proof. intros H. rewrite <- (app_nil_r ss) at 1. rewrite (run_passed _ _ _ _ _ H). reflexivity. Qed.
Lemma run_failed l s r w ds w1 d w' g : passes exec l w ds w1 -> fails exec s w1 d w' -> run_steps exec (l ++ s :: r) w g =
  (w', tell (BuildFinished (T "Build failed during " ++ step_name s) false) (logged g (ds ++ [(s, d)])), Some (build_error (T "Build step " ++ step_name s ++ T " failed: " ++ d_err d))).
Proof. intros H [E K]. rewrite (run_passed _ _ _ _ _ H). cbn [run_steps]. unfold one_step. rewrite E, K. unfold logged. rewrite fold_left_app. reflexivity. Qed.
Lemma run_erred l s r w ds w1 e w' g : passes exec l w ds w1 -> errs exec s w1 e w' -> run_steps exec (l ++ s :: r) w g = (w', tell (StepStarted s) (logged g ds), Some e).
Proof. intros H E. rewrite (run_passed _ _ _ _ _ H). cbn [run_steps]. unfold one_step. rewrite E. reflexivity. Qed.
(** what is in the log *)
Lemma logged_out ds : forall g, l_out (logged g ds) = l_out g ++ outputs ds.
Proof.
  induction ds as [|[s d] ds IH]; intros g; [symmetry; apply app_nil_r|]. unfold logged. cbn [fold_left fst snd]. fold (logged (log_step s d (tell (StepStarted s) g)) ds). rewrite IH.
  cbn [log_step tell l_out outputs]. rewrite called_name, <- !app_assoc. reflexivity.
Qed.
Lemma logged_err ds : forall g, l_err (logged g ds) = l_err g ++ warnings ds.
Proof.
  induction ds as [|[s d] ds IH]; intros g; [symmetry; apply app_nil_r|]. unfold logged. cbn [fold_left fst snd]. fold (logged (log_step s d (tell (StepStarted s) g)) ds). rewrite IH.
  cbn [log_step tell l_err warnings]. rewrite called_name, <- !app_assoc. destruct (d_err d); reflexivity.
Qed.
(** ** Events *)
Lemma bare_trim l : (trim l = [] /\ blanks l) \/ (trim l <> [] /\ bare l (trim l)).
Proof.
  destruct (trim_split l) as (u & v & U & V & E). destruct (trim l) as [|c m] eqn:Et.
  - left. split; [reflexivity|]. rewrite E. intros c Hc. cbn in Hc. apply in_app_iff in Hc. rewrite forallb_forall in U, V. destruct Hc; auto.
  - right. split; [discriminate|]. exists u, v. split; [exact E|]. rewrite forallb_forall in U, V. split; [exact U|]. split; [exact V|]. split; [discriminate|].
    assert (I : trim (c :: m) = c :: m) by (rewrite <- Et; apply trim_idem). apply trim_fixed_ends in I. destruct I as [I1 I2]. split.
    + intros d r F. injection F as <- <-. exact I1.
    + destruct (rev (c :: m)) as [|d r] eqn:R; [apply (f_equal (@rev _)) in R; rewrite rev_involutive in R; discriminate|]. exists (rev r), d.
      split; [|exact I2]. apply (f_equal (@rev _)) in R. rewrite rev_involutive in R. exact R.
Qed.
Lemma shown_bare ls : bare_lines ls (map trim (filter (fun l => negb (is_nil (trim l))) (map chomp ls))).
Proof.
  induction ls as [|l ls IH]; [constructor|]. cbn [map filter]. rewrite trim_chomp. destruct (bare_trim l) as [[E B]|[E B]].
  - rewrite E. cbn. apply bare_blank; assumption.
  - destruct (trim l) as [|c m] eqn:Et; [contradiction|]. cbn [is_nil negb map]. rewrite trim_chomp, Et. apply bare_line; assumption.
Qed.
Lemma shown_last ls : ls <> [] -> last ls [] = [] -> map trim (filter (fun l => negb (is_nil (trim l))) (map chomp ls)) = map trim (filter (fun l => negb (is_nil (trim l))) (map chomp (removelast ls))).
Proof.
  intros N E. rewrite (app_removelast_last [] N) at 1. rewrite E. rewrite map_app, filter_app, map_app. cbn. apply app_nil_r.
Qed.
Lemma shown_spec t : lines_shown t (shown_lines t).
Proof.
  exists (split_on NL t). split; [apply split_on_nonnil|]. split; [apply split_on_pieces|]. split; [symmetry; apply join_split|]. unfold shown_lines, file_lines.
  destruct (is_nil (last (split_on NL t) [])) eqn:E; [|apply shown_bare]. destruct (last (split_on NL t) []) eqn:L; [|discriminate]. rewrite <- shown_last; [apply shown_bare|apply split_on_nonnil|exact L].
Qed.
Lemma shown_empty : shown_lines [] = [].
Proof. reflexivity. Qed.
Lemma step_chapter s d g : exists es, chapter s d es /\ l_events (log_step s d (tell (StepStarted s) g)) = l_events g ++ es.
Proof.
  exists (StepStarted s :: map (StepOutput s) (shown_lines (d_out d)) ++ map (StepError s) (shown_lines (d_err d)) ++ [StepFinished s (d_ok d)]).
  split; [exists (shown_lines (d_out d)), (shown_lines (d_err d)); split; [apply shown_spec|split; [apply shown_spec|reflexivity]]|].
  cbn [log_step tell l_events]. rewrite <- app_assoc. do 3 f_equal. destruct (d_err d); reflexivity.
Qed.
Lemma logged_events ds : forall g, exists es, chapters ds es /\ l_events (logged g ds) = l_events g ++ es.
Proof.
  induction ds as [|[s d] ds IH]; intros g; [exists []; split; [constructor|symmetry; apply app_nil_r]|]. destruct (step_chapter s d g) as (e1 & C1 & E1).
  destruct (IH (log_step s d (tell (StepStarted s) g))) as (e2 & C2 & E2). exists (e1 ++ e2). split; [constructor; assumption|]. unfold logged. cbn [fold_left fst snd].
  fold (logged (log_step s d (tell (StepStarted s) g)) ds). rewrite E2, E1, app_assoc. reflexivity.
Qed.
(** ** The build as a whole *)
Lemma build_all label w ds w' : passes exec course w ds w' -> exists es, chapters ds es /\
  build exec label w = (w', BuildStarted (T "Building " ++ label) :: es ++ [BuildFinished (T "Build finished") true], mkResult true (outputs ds) []).
Proof.
  intros H. destruct (logged_events ds (first_log label)) as (es & C & E). exists es. split; [exact C|]. unfold build. change all_steps with course. rewrite (run_all _ _ _ _ _ H). cbn [keep_error tell l_events l_out].
  rewrite E, logged_out. reflexivity.
Qed.
Lemma build_fails label w l s r ds w1 d w' : course = l ++ s :: r -> passes exec l w ds w1 -> fails exec s w1 d w' -> exists es, chapters (ds ++ [(s, d)]) es /\
  build exec label w = (w', BuildStarted (T "Building " ++ label) :: es ++ [BuildFinished (T "Build failed during " ++ called s) false],
    mkResult false (outputs (ds ++ [(s, d)])) (if is_nil (trim (warnings (ds ++ [(s, d)]))) then warnings (ds ++ [(s, d)]) ++ T "Build error: Build step " ++ called s ++ T " failed: " ++ d_err d else warnings (ds ++ [(s, d)]))).
Proof.
  intros EC H F. destruct (logged_events (ds ++ [(s, d)]) (first_log label)) as (es & C & E). exists es. split; [exact C|]. unfold build. change all_steps with course. rewrite EC, (run_failed _ _ _ _ _ _ _ _ _ H F).
  cbn [keep_error tell l_err]. rewrite logged_err. cbn [first_log l_err app]. destruct (is_nil (trim (warnings (ds ++ [(s, d)])))); cbn [tell l_events l_out l_err]; rewrite E, logged_out, ?logged_err, !called_name; reflexivity.
Qed.
Lemma build_errs label w l s r ds w1 e w' : course = l ++ s :: r -> passes exec l w ds w1 -> errs exec s w1 e w' -> exists es, chapters ds es /\
  build exec label w = (w', BuildStarted (T "Building " ++ label) :: es ++ [StepStarted s], mkResult false (outputs ds) (if is_nil (trim (warnings ds)) then warnings ds ++ e else warnings ds)).
Proof.
  intros EC H F. destruct (logged_events ds (first_log label)) as (es & C & E). exists es. split; [exact C|]. unfold build. change all_steps with course. rewrite EC, (run_erred _ _ _ _ _ _ _ _ _ H F).
  cbn [keep_error tell l_err]. rewrite logged_err. cbn [first_log l_err app]. destruct (is_nil (trim (warnings ds))); cbn [tell l_events l_out l_err]; rewrite E, logged_out, ?logged_err; reflexivity.
Qed.
Lemma build_cases label w : exists ds w' ev res, build exec label w = (w', ev, res) /\
  ((passes exec course w ds w' /\ r_ok res = true) \/
   (exists l s r w1 d, course = l ++ s :: r /\ passes exec l w ds w1 /\ fails exec s w1 d w' /\ r_ok res = false) \/
   (exists l s r w1 e, course = l ++ s :: r /\ passes exec l w ds w1 /\ errs exec s w1 e w' /\ r_ok res = false)).
Proof.
  destruct (ends_total course w) as (ds & w' & z & H). destruct H as [ds w' H|l s r ds w1 d w' E H F|l s r ds w1 e w' E H F].
  - destruct (build_all label w ds w' H) as (es & _ & B). exists ds, w'. eexists _, _. split; [exact B|]. left. auto.
  - destruct (build_fails label w l s r ds w1 d w' E H F) as (es & _ & B). exists ds, w'. eexists _, _. split; [exact B|]. right. left. exists l, s, r, w1, d. auto.
  - destruct (build_errs label w l s r ds w1 e w' E H F) as (es & _ & B). exists ds, w'. eexists _, _. split; [exact B|]. right. right. exists l, s, r, w1, e. auto.
Qed.
Lemma chapter_finish s d es m b : chapter s d es -> ~ In (BuildFinished m b) es.
Proof.
  intros (os & er & _ & _ & ->) H. destruct H as [H|H]; [discriminate|]. apply in_app_iff in H. destruct H as [H|H]; [apply in_map_iff in H; destruct H as (? & ? & _); discriminate|].
  apply in_app_iff in H. destruct H as [H|[H|[]]]; [apply in_map_iff in H; destruct H as (? & ? & _); discriminate|discriminate].
Qed.
Lemma chapters_finish ds es m b : chapters ds es -> ~ In (BuildFinished m b) es.
Proof. induction 1 as [|s d ds es rest C _ IH]; [intros []|]. intros H. apply in_app_iff in H. destruct H as [H|H]; [eapply chapter_finish; eauto|auto]. Qed.
(** ** Cancelling *)
(** all but the status is the same *)
Definition same_work (p q : proc W) : Prop := p_todo p = p_todo q /\ p_world p = p_world q /\ p_log p = p_log q /\ p_over p = p_over q.
Lemma same_refl p : same_work p p.
Proof. repeat split. Qed.
Lemma work_same p q : same_work p q -> same_work (work exec p) (work exec q).
Proof.
  intros (A & B & C & D). unfold work. rewrite <- D, <- A, <- B, <- C. destruct (p_over p) eqn:O; [repeat split; auto; congruence|]. destruct (p_todo p) as [|s r]; [repeat split; cbn; reflexivity|].
  destruct (one_step exec s (p_world p) (p_log p)) as [[w l] [e|]]; repeat split.
Qed.
Definition works (ts : list turn) : list turn := filter (fun t => match t with Work => true | Cancel => false end) ts.
Lemma schedule_same ts : forall p q, same_work p q -> same_work (schedule exec ts p) (schedule exec (works ts) q).
Proof.
  induction ts as [|t ts IH]; intros p q H; [exact H|]. destruct t; cbn [works filter].
  - cbn [schedule fold_left]. apply (IH (work exec p) (work exec q)). apply work_same, H.
  - cbn [schedule fold_left]. apply (IH (cancel p) q). exact H.
Qed.
Lemma work_over p : p_over p = true -> work exec p = p.
Proof. intros H. unfold work. rewrite H. reflexivity. Qed.
Lemma works_over n p : p_over p = true -> schedule exec (repeat Work n) p = p.
Proof. intros H. induction n as [|n IH]; [reflexivity|]. cbn [repeat schedule fold_left take]. rewrite (work_over p H). exact IH. Qed.
(** left alone, the task does what the steps do *)
Lemma task_runs ss : forall st w l n, length ss < n -> schedule exec (repeat Work n) (mkProc st ss w l false) =
  match run_steps exec ss w l with (w', l', e) => mkProc (match e with None => Success | Some _ => Failed end) [] w' (keep_error e l') true end.
Proof.
  induction ss as [|s ss IH]; intros st w l n L; (destruct n as [|n]; [cbn in L; lia|]); cbn [repeat schedule fold_left take]; fold (schedule exec).
  - unfold work. cbn [p_over p_todo]. change (fold_left (fun p t => take exec t p) (repeat Work n) ?p) with (schedule exec (repeat Work n) p). rewrite works_over by reflexivity. reflexivity.
  - unfold work. cbn [p_over p_todo p_world p_log p_status run_steps]. change (fold_left (fun p t => take exec t p) (repeat Work n) ?p) with (schedule exec (repeat Work n) p).
    destruct (one_step exec s w l) as [[w1 l1] [e|]] eqn:E.
    + rewrite works_over by reflexivity. reflexivity.
    + apply IH. cbn in L. lia.
Qed.
Lemma works_repeat ts : works ts = repeat Work (length (works ts)).
Proof. induction ts as [|[] ts IH]; cbn; [reflexivity|f_equal; exact IH|exact IH]. Qed.
Lemma cancelled_work ts label w : 8 < length (works ts) -> let p := schedule exec ts (started label w) in
  p_over p = true /\ p_world p = fst (fst (build exec label w)) /\ l_events (p_log p) = snd (fst (build exec label w)).
Proof.
  intros L p. destruct (schedule_same ts (started label w) (started label w) (same_refl _)) as (A & B & C & D). fold p in A, B, C, D. rewrite works_repeat in A, B, C, D. unfold started in A, B, C, D.
  rewrite task_runs in A, B, C, D by (change (length all_steps) with 8; exact L). unfold build. destruct (run_steps exec all_steps w (first_log label)) as [[w' l'] e]. cbn in A, B, C, D. rewrite B, C, D. destruct e; repeat split.
Qed.
Lemma status_while_working ts : forall p, p_over (schedule exec ts p) = false -> p_status p = Cancelled -> p_status (schedule exec ts p) = Cancelled.
Proof.
  induction ts as [|t ts IH]; intros p O H; [exact H|]. cbn [schedule fold_left] in O |- *. apply (IH (take exec t p)); [exact O|]. destruct t; [|reflexivity]. cbn [take]. cbn [take] in O.
  destruct (p_over (work exec p)) eqn:Ow.
  - exfalso. clear -O Ow. assert (X : forall ts q, p_over q = true -> p_over (fold_left (fun p t => take exec t p) ts q) = true).
    { induction ts0 as [|t ts0 IH]; intros q Hq; [exact Hq|]. cbn [fold_left]. apply IH. destruct t; [cbn; rewrite work_over; assumption|exact Hq]. }
    rewrite (X ts (work exec p) Ow) in O. discriminate.
  - unfold work in *. destruct (p_over p) eqn:Op; [exact H|]. destruct (p_todo p) as [|s r]; [discriminate|]. destruct (one_step exec s (p_world p) (p_log p)) as [[w l] [e|]]; [discriminate|exact H].
Qed.
End World.

(** ** The manager *)
Lemma mem_in t l : mem_text t l = true <-> In t l.
Proof. unfold mem_text. rewrite existsb_exists. split; [intros (y & H & E); apply text_eqb_eq in E; subst; exact H|intros H; exists t; split; [exact H|apply text_eqb_eq; reflexivity]]. Qed.
Lemma drop_notin id l : ~ In id l -> filter (fun j => negb (text_eqb id j)) l = l.
Proof.
  induction l as [|a l IH]; intros H; [reflexivity|]. cbn. destruct (text_eqb id a) eqn:E; [apply text_eqb_eq in E; subst; destruct H; left; reflexivity|]. cbn. rewrite IH; [reflexivity|]. intros X. apply H. right. exact X.
Qed.
Lemma drop_length id l : NoDup l -> In id l -> S (length (filter (fun j => negb (text_eqb id j)) l)) = length l.
Proof.
  induction 1 as [|a l Na _ IH]; intros H; [destruct H|]. cbn. destruct (text_eqb id a) eqn:E.
  - apply text_eqb_eq in E. subst a. cbn. rewrite drop_notin by exact Na. reflexivity.
  - destruct H as [->|H]; [rewrite (proj2 (text_eqb_eq id id) eq_refl) in E; discriminate|]. cbn. rewrite IH by exact H. reflexivity.
Qed.
Lemma drop_in id a l : In a (filter (fun j => negb (text_eqb id j)) l) <-> In a l /\ a <> id.
Proof.
  rewrite filter_In. destruct (text_eqb id a) eqn:E; cbn; [apply text_eqb_eq in E; subst; intuition congruence|]. split; intros [H _]; split; auto. intros ->. rewrite (proj2 (text_eqb_eq id id) eq_refl) in E. discriminate.
Qed.
Lemma nodup_filter {A} (f : A -> bool) l : NoDup l -> NoDup (filter f l).
Proof. induction 1 as [|a l Na _ IH]; [constructor|]. cbn. destruct (f a); [|exact IH]. constructor; [rewrite filter_In; tauto|exact IH]. Qed.
Lemma leave_sound id ok m : sound m -> In id (m_active m) -> exists m', leave_build id ok m = Went m' /\ sound m' /\ m_max m' = m_max m /\
  (forall j, In j (m_active m') <-> In j (m_active m) /\ j <> id) /\ st_started (m_stats m') = st_started (m_stats m) /\
  st_ok (m_stats m') = (if ok then 1 else 0) + st_ok (m_stats m) /\ st_failed (m_stats m') = (if ok then 0 else 1) + st_failed (m_stats m).
Proof.
  intros (R & S & N) H. unfold leave_build. rewrite (proj2 (mem_in id _) H). pose proof (drop_length id _ N H) as L. unfold less_running. destruct (st_running (m_stats m)) as [|r] eqn:Er; [rewrite <- R in L; discriminate|].
  eexists. split; [reflexivity|]. cbn. split; [|split; [reflexivity|split; [intros j; apply drop_in|destruct ok; cbn; auto]]].
  split; [destruct ok; cbn; lia|]. split; [destruct ok; cbn; lia|]. apply nodup_filter, N.
Qed.
Lemma leave_unknown id ok m : ~ In id (m_active m) -> leave_build id ok m = Refused m.
Proof. intros H. unfold leave_build. destruct (mem_text id (m_active m)) eqn:E; [apply mem_in in E; contradiction|reflexivity]. Qed.
Lemma starts_app a b : starts (a ++ b) = starts a ++ starts b.
Proof. apply flat_map_app. Qed.
Lemma answers_sound cs : forall m, sound m -> NoDup (starts cs) -> (forall id, In id (starts cs) -> ~ In id (m_active m)) -> no_reset cs ->
  exists m', answers cs m = Some m' /\ sound m' /\ (no_limit cs -> length (m_active m) <= m_max m -> length (m_active m') <= m_max m').
Proof.
  induction cs as [|c cs IH]; intros m Hm N F R; [exists m; auto|]. cbn [answers].
  assert (R' : no_reset cs) by (intros X; apply R; right; exact X). assert (L' : no_limit (c :: cs) -> no_limit cs) by (intros L n X; apply (L n); right; exact X).
  assert (G : forall m1, sound m1 -> (forall id, In id (starts cs) -> ~ In id (m_active m1)) -> (length (m_active m) <= m_max m -> length (m_active m1) <= m_max m1) ->
    NoDup (starts cs) -> exists m', answers cs m1 = Some m' /\ sound m' /\ (no_limit (c :: cs) -> length (m_active m) <= m_max m -> length (m_active m') <= m_max m')).
  { intros m1 H1 H2 H3 H4. destruct (IH m1 H1 H4 H2 R') as (m' & A & B & C). exists m'. split; [exact A|]. split; [exact B|]. intros X Y. apply C; auto. }
  assert (Same : NoDup (starts cs) -> (forall id, In id (starts cs) -> ~ In id (m_active m)) -> exists m', answers cs m = Some m' /\ sound m' /\ (no_limit (c :: cs) -> length (m_active m) <= m_max m -> length (m_active m') <= m_max m')) by (intros; apply G; auto).
  assert (Leave : forall id ok, c = CallWait id ok \/ c = CallCancel id /\ ok = false -> exists m', answers (c :: cs) m = Some m' /\ sound m' /\ (no_limit (c :: cs) -> length (m_active m) <= m_max m -> length (m_active m') <= m_max m')).
  { intros id ok Hc. assert (Ea : answer_to c m = leave_build id ok m) by (destruct Hc as [->|[-> ->]]; reflexivity). assert (Es : starts (c :: cs) = starts cs) by (destruct Hc as [->|[-> _]]; reflexivity).
    rewrite Es in N, F. cbn [answers]. rewrite Ea. destruct (in_dec (list_eq_dec ascii_dec) id (m_active m)) as [I|I]; [|rewrite leave_unknown by exact I; apply Same; assumption].
    destruct (leave_sound id ok m Hm I) as (m1 & -> & S1 & M1 & A1 & _). apply G; [exact S1| |intros X; destruct Hm as (_ & _ & Nm); destruct S1 as (_ & _ & N1)|exact N].
    - intros j Hj X. apply A1 in X. apply (F j Hj). tauto.
    - rewrite M1. etransitivity; [|exact X]. apply NoDup_incl_length; [exact N1|]. intros j Hj. apply A1 in Hj. tauto. }
  destruct c as [id fine|id ok|id| |n].
  - cbn [answer_to]. cbn [starts flat_map app] in N, F. change (flat_map _ cs) with (starts cs) in N, F. inversion N as [|? ? N1 N2]. subst.
    assert (Keep : forall id0, In id0 (starts cs) -> ~ In id0 (m_active m)) by (intros j Hj; apply F; right; exact Hj).
    destruct (m_max m <=? length (m_active m))%nat eqn:El; [apply Same; assumption|]. destruct fine; [|apply Same; assumption]. apply Nat.leb_gt in El.
    assert (Fi : ~ In id (m_active m)) by (apply F; left; reflexivity). rewrite drop_notin by exact Fi. destruct Hm as (H1 & H2 & H3). apply G; cbn; [split; [cbn; lia|split; [cbn; lia|constructor; assumption]]| |lia|exact N2].
    intros j Hj [->|X]; [contradiction|]. apply (Keep j Hj X).
  - apply (Leave id ok). left. reflexivity.
  - apply (Leave id false). right. auto.
  - destruct R. left. reflexivity.
  - cbn [answer_to]. cbn [starts flat_map app] in N, F. destruct (IH (mkManager (m_active m) n (m_stats m)) Hm N F R') as (m' & A & B & C). exists m'. split; [exact A|]. split; [exact B|].
    intros X. destruct (X n). left. reflexivity.
Qed.
