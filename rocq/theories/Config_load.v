(** Proofs about the layers of [Config::load] (CF) and about [RezCoreConfig] (CC). *)
From Coq Require Import Permutation.
From Verif Require Import Base Base_lemmas Text_lemmas Maps Json Config_model Config_spec Config_proofs Config_env.
Open Scope string_scope. Open Scope list_scope.

(** the disk of the specification *)
Definition disk_of (fs : files) : disk := fun p => match fs p with None => None | Some Unreadable => Some None | Some (File s) => Some (Some s) end.
Lemma disk_none fs p : disk_of fs p = None <-> fs p = None.
Proof. unfold disk_of. destruct (fs p) as [[|s]|]; split; (reflexivity || discriminate). Qed.
Lemma find_none_all fs l : (forall p, In p l -> disk_of fs p = None) -> first_existing fs l = None.
Proof.
  unfold first_existing. induction l as [|p l IH]; intros H; [reflexivity|]. cbn [find]. unfold exists_at at 1.
  rewrite (proj1 (disk_none fs p) (H p (or_introl eq_refl))). apply IH. intros q I. apply H. right. exact I.
Qed.
Lemma find_first fs l1 p l2 : (forall q, In q l1 -> disk_of fs q = None) -> disk_of fs p <> None -> first_existing fs (l1 ++ p :: l2) = Some p.
Proof.
  unfold first_existing. intros H E. induction l1 as [|q l1 IH]; cbn [app find]; unfold exists_at at 1.
  - destruct (fs p) eqn:F; [reflexivity|]. destruct E. apply disk_none. exact F.
  - rewrite (proj1 (disk_none fs q) (H q (or_introl eq_refl))). apply IH. intros x I. apply H. right. exact I.
Qed.
Lemma layer_provides toml fs l js j : provides toml (disk_of fs) l js -> layer toml fs l j = Some (fold_left (fun d x => merge x d) js j).
Proof.
  intros P. unfold layer. inversion P as [l' N|l1 p l2 s t N F R]; subst.
  - rewrite (find_none_all fs l N). reflexivity.
  - rewrite (find_first fs l1 p l2 N) by (rewrite F; discriminate). unfold merge_file, read_at. unfold disk_of in F.
    destruct (fs p) as [[|s']|]; try discriminate F. injection F as ->. rewrite R. reflexivity.
Qed.
Lemma layer_broken toml fs l j : broken toml (disk_of fs) l -> layer toml fs l j = None.
Proof.
  intros [l1 [p [l2 [-> [N F]]]]]. unfold layer. rewrite (find_first fs l1 p l2 N) by (destruct F as [F|[s [F _]]]; rewrite F; discriminate).
  unfold merge_file, read_at. unfold disk_of in F. destruct (fs p) as [[|s']|].
  - reflexivity.
  - destruct F as [F|[s [F R]]]; [discriminate F|]. injection F as ->. rewrite R. reflexivity.
  - reflexivity.
Qed.
Lemma layer_cases toml fs l : (exists js, provides toml (disk_of fs) l js) \/ broken toml (disk_of fs) l.
Proof.
  induction l as [|p l IH]; [left; exists []; constructor; intros p []|].
  destruct (disk_of fs p) as [[s|]|] eqn:E.
  - destruct (toml s) as [j|] eqn:R.
    + left. exists [j]. exact (one_file toml (disk_of fs) [] p l s j (fun q I => match I with end) E R).
    + right. exists [], p, l. split; [reflexivity|]. split; [intros q []|]. right. exists s. split; assumption.
  - right. exists [], p, l. split; [reflexivity|]. split; [intros q []|]. left. exact E.
  - destruct IH as [[js P]|[l1 [q [l2 [-> [N F]]]]]].
    + left. exists js. inversion P as [l' N|l1 q l2 s t N F R]; subst.
      * constructor. intros q [<-|I]; [exact E|exact (N q I)].
      * apply (one_file toml (disk_of fs) (p :: l1) q l2 s t); [intros x [<-|I]; [exact E|exact (N x I)]|assumption..].
    + right. exists (p :: l1), q, l2. split; [reflexivity|]. split; [intros x [<-|I]; [exact E|exact (N x I)]|exact F].
Qed.
Lemma join_usual d x : usual_dir d -> path_join d x = d ++ T "/" ++ x.
Proof.
  intros [N S]. unfold path_join. destruct d as [|c d]; [destruct N; reflexivity|]. cbn [is_nil orb].
  destruct (ends_with (T "/") (c :: d)) eqn:E; [|reflexivity]. apply ends_with_spec in E. destruct E as [y E]. destruct (S y E).
Qed.
Lemma join_again d x y : x <> [] -> ends_with (T "/") x = false -> path_join (d ++ T "/" ++ x) y = d ++ T "/" ++ x ++ T "/" ++ y.
Proof.
  intros N E. unfold path_join. assert (is_nil (d ++ T "/" ++ x) = false) as -> by (destruct d; reflexivity). cbn [orb].
  destruct (ends_with (T "/") (d ++ T "/" ++ x)) eqn:E2.
  - exfalso. apply ends_with_spec in E2. destruct E2 as [z E2]. destruct (exists_last N) as [x' [c ->]].
    rewrite app_assoc in E2. rewrite app_assoc in E2. change (T "/") with ["/"%char] in E2. apply app_inj_tail in E2. destruct E2 as [_ ->].
    assert (ends_with (T "/") (x' ++ T "/") = true) as X by (apply ends_with_spec; exists x'; reflexivity). change (T "/") with ["/"%char] in X at 2. rewrite X in E. discriminate E.
  - rewrite <- !app_assoc. reflexivity.
Qed.
Lemma user_documented c h : usual_dir c -> usual_dir h -> user_places (Some c) (Some h) = documented_user c h.
Proof. intros C H. unfold user_places. rewrite (join_usual c), (join_usual h) by assumption. rewrite !join_again by (discriminate || reflexivity). reflexivity. Qed.
Lemma project_documented d : usual_dir d -> project_places (Some d) = documented_project d.
Proof. intros H. unfold project_places. rewrite (join_usual d) by assumption. rewrite !join_again by (discriminate || reflexivity). reflexivity. Qed.
Lemma layered_empty l p v : ~ table v -> layered (JObj [] :: l) p v <-> layered l p v.
Proof. intros N. cbn [layered]. split; [intros [H|[H _]]; [exact H|destruct (empty_path p v N H)]|intros H; left; exact H]. Qed.
(** the data before the variables *)
Lemma load_layers toml parse fs c h w vars ls lu lp : usual_dir c -> usual_dir h -> usual_dir w ->
  provides toml (disk_of fs) documented_system ls -> provides toml (disk_of fs) (documented_user c h) lu -> provides toml (disk_of fs) (documented_project w) lp ->
  load toml parse fs (Some c) (Some h) (Some w) vars = Some (env_overrides parse vars (fold_left (fun d x => merge x d) (ls ++ lu ++ lp) (JObj []))).
Proof.
  intros UC UH UW PS PU PP. unfold load. change system_places with documented_system. rewrite (layer_provides toml fs _ ls _ PS).
  rewrite (user_documented c h UC UH), (layer_provides toml fs _ lu _ PU), (project_documented w UW), (layer_provides toml fs _ lp _ PP).
  rewrite !fold_left_app. reflexivity.
Qed.
Lemma load_broken toml parse fs c h w vars : usual_dir c -> usual_dir h -> usual_dir w ->
  load toml parse fs (Some c) (Some h) (Some w) vars = None <->
  broken toml (disk_of fs) documented_system \/ broken toml (disk_of fs) (documented_user c h) \/ broken toml (disk_of fs) (documented_project w).
Proof.
  intros UC UH UW. unfold load. change system_places with documented_system. rewrite (user_documented c h UC UH), (project_documented w UW). split.
  - intros E. destruct (layer_cases toml fs documented_system) as [[ls PS]|B]; [|left; exact B]. rewrite (layer_provides _ _ _ _ _ PS) in E.
    destruct (layer_cases toml fs (documented_user c h)) as [[lu PU]|B]; [|right; left; exact B]. rewrite (layer_provides _ _ _ _ _ PU) in E.
    destruct (layer_cases toml fs (documented_project w)) as [[lp PP]|B]; [|right; right; exact B]. rewrite (layer_provides _ _ _ _ _ PP) in E. discriminate E.
  - intros [B|[B|B]].
    + rewrite (layer_broken _ _ _ _ B). reflexivity.
    + destruct (layer toml fs documented_system (JObj [])); [|reflexivity]. rewrite (layer_broken _ _ _ _ B). reflexivity.
    + destruct (layer toml fs documented_system (JObj [])) as [a|]; [|reflexivity].
      destruct (layer toml fs (documented_user c h) a); [|reflexivity]. rewrite (layer_broken _ _ _ _ B). reflexivity.
Qed.
Lemma provided_in toml d l js j : provides toml d l js -> In j js -> exists s, toml s = Some j.
Proof. intros P I. inversion P as [|? ? ? s ? ? ? R]; subst; [destruct I|]. destruct I as [<-|[]]. exists s. exact R. Qed.
Lemma layered_in l p v : layered l p v -> exists j, In j l /\ at_path j p v.
Proof.
  induction l as [|j l IH]; cbn [layered In].
  - intros [].
  - intros [W|[W _]]; [destruct (IH W) as [j' [J A]]; exists j'; split; [right; exact J|exact A]|exists j; split; [left; reflexivity|exact W]].
Qed.
Lemma load_plain toml parse fs c h w vars ls lu lp : usual_dir c -> usual_dir h -> usual_dir w -> toml_gives toml -> json_gives parse ->
  provides toml (disk_of fs) documented_system ls -> provides toml (disk_of fs) (documented_user c h) lu -> provides toml (disk_of fs) (documented_project w) lp ->
  all_apart vars -> (forall n s p j, In (n, s) vars -> stands_for n p -> In j (ls ++ lu ++ lp) -> open_way j p) ->
  exists d, load toml parse fs (Some c) (Some h) (Some w) vars = Some d /\ tidy d /\ forall r x, ~ table x ->
    at_path d r x <->
    (exists n s p t, In (n, s) vars /\ stands_for n p /\ r = p ++ t /\ at_path (env_value parse s) t x) \/
    ((forall n s p, In (n, s) vars -> stands_for n p -> ~ begins p r) /\ layered (ls ++ lu ++ lp) r x).
Proof.
  intros UC UH UW TG JG PS PU PP AA O. rewrite (load_layers toml parse fs c h w vars ls lu lp) by assumption. eexists. split; [reflexivity|].
  assert (G : forall j, In j (ls ++ lu ++ lp) -> tidy j /\ table j).
  { intros j I. apply in_app_or in I. destruct I as [I|I]; [destruct (provided_in _ _ _ _ j PS I) as [s E]; exact (TG s j E)|]. apply in_app_or in I.
    destruct I as [I|I]; [destruct (provided_in _ _ _ _ j PU I) as [s E]|destruct (provided_in _ _ _ _ j PP I) as [s E]]; exact (TG s j E). }
  destruct (merges_tidy (ls ++ lu ++ lp) (JObj []) tidy_empty (ex_intro _ [] eq_refl) G) as [TD BD].
  set (d := fold_left (fun d x => merge x d) (ls ++ lu ++ lp) (JObj [])) in *.
  pose proof (overrides_tidy parse vars JG d TD) as TE. split; [exact TE|]. intros r x NT.
  assert (NX : is_object x = false) by (destruct x; try reflexivity; destruct NT; eexists; reflexivity).
  rewrite <- (walk_iff r _ x TE), overrides_leaf; [|exact AA| |exact NX].
  - rewrite (walk_iff r d x TD). unfold d. rewrite (merges_leaf (ls ++ lu ++ lp) (JObj []) r x tidy_empty (ex_intro _ [] eq_refl) G NT), (layered_empty _ r x NT).
    assert (TV : forall s, tidy (env_value parse s)) by (intros s; unfold env_value; destruct (parse s) as [v|] eqn:E; [exact (JG s v E)|constructor]).
    split; (intros [[n [s [p [t [I [ST [E W]]]]]]]|H]; [left; exists n, s, p, t; repeat split; try assumption; apply (walk_iff t _ x (TV s)); exact W|right; exact H]).
  - intros n s p I ST q w' B NE W. destruct (is_object w') eqn:OW; [reflexivity|exfalso]. apply (walk_iff q d w' TD) in W. unfold d in W.
    apply (merges_leaf (ls ++ lu ++ lp) (JObj []) q w' tidy_empty (ex_intro _ [] eq_refl) G (not_object w' OW)) in W.
    pose proof (proj1 (layered_empty _ q w' (not_object w' OW)) W) as W'. clear W. rename W' into W.
    destruct (layered_in _ q w' W) as [j [J A]].
    exact (not_object w' OW (O n s p j I ST J q w' B NE A)).
Qed.
