(** Properties C210-C219: bundles. *)
From Verif Require Import Base Base_lemmas Maps Sorting Order_spec Files_model Files_spec Files_proofs Query_model Env_model Rex_model Rex_spec Rex_proofs Rex_shell P_Rex Bundle_model Bundle_spec Bundle_text Bundle_proofs Bundle_disk.
Open Scope string_scope. Open Scope list_scope.

(** a repository with a package, and the places of texts *)
Definition demo_place (t : text) : path := filter (fun c => negb (is_nil c)) (split_on "/" t).
Definition demo_a1 : node := Dir [(T "package.py", File (T "name")); (T "bin", Dir [(T "run", File (T "go"))])].
Definition demo_disk : node := Dir [(T "repo", Dir [(T "a", Dir [(T "1", demo_a1)])])].
Definition demo_resolve (rs : list text) : option (list (text * option text)) := Some [(T "a", Some (T "1"))].
Definition demo_text (rs : list text) (ps : list (text * option text)) : text := T "{}".
Definition demo_bundle io resolve := bundle io (fun _ => true) resolve demo_place (T "now") demo_text demo_text id_order.
Definition demo_args (ps : list text) (out : option text) : bundle_args := mkBundle ps out None false.
Definition disk_of (r : ran) : node := match r with Ran _ x _ => x | Endless => Dir [] end.

(** ** C210 *)
(** What [bundle_context] wrote, [unbundle_context] gives back: of texts of one line those that show, without the white space at their ends. *)
Theorem C210_exact_partial : forall ps dest b x x', bundle_context ps dest b x = Some x' -> Forall one_line ps -> exists l, unbundle_context dest x' = Some l /\ shown ps l.
Proof.
  intros ps dest b x x' H Hp. exists (filter (fun t => negb (is_nil t)) (map trim_end ps)). split; [|apply shown_filter].
  assert (P : put (dest ++ [T "bundle.yaml"]) (File (manifest ps b)) x = Some x').
  { unfold bundle_context in H. destruct (get dest x) as [[]|]; try discriminate; [|exact H]. destruct (get (dest ++ [T "bundle.yaml"]) x) as [[]|]; try discriminate; exact H. }
  unfold unbundle_context. rewrite (get_put_same _ _ _ _ P). f_equal. apply manifest_read, Hp.
Qed.
Print Assumptions C210_exact_partial.
(** The same texts come back exactly if all of them end visibly. *)
Theorem C210_same_partial : forall ps dest b x x', bundle_context ps dest b x = Some x' -> Forall one_line ps -> (unbundle_context dest x' = Some ps <-> Forall ends_visibly ps).
Proof.
  intros ps dest b x x' H Hp. destruct (C210_exact_partial ps dest b x x' H Hp) as (l & -> & Hl). rewrite <- shown_self. split.
  - intros E. injection E as ->. exact Hl.
  - intros Hs. f_equal. rewrite (shown_det _ _ Hl). symmetry. exact (shown_det _ _ Hs).
Qed.
Print Assumptions C210_same_partial.
Theorem C210_refuted : exists ps dest x x', bundle_context ps dest false x = Some x' /\ unbundle_context dest x' = Some [T "a"] /\ ps = [T "a" ++ NL :: T "b"; T "c-2"].
Proof. exists [T "a" ++ NL :: T "b"; T "c-2"], [T "d"], (Dir []). eexists. split; [reflexivity|]. split; vm_compute; reflexivity. Qed.
Print Assumptions C210_refuted.
Theorem C210_blank_refuted : exists ps dest x x', bundle_context ps dest false x = Some x' /\ unbundle_context dest x' = Some [T "b"] /\ ps = [T ""; T "b "].
Proof. exists [T ""; T "b "], [T "d"], (Dir []). eexists. split; [reflexivity|]. split; vm_compute; reflexivity. Qed.
Print Assumptions C210_blank_refuted.
(** Nothing else is changed, and the packages themselves are not bundled. *)
Theorem C210_only : forall ps dest b x x', bundle_context ps dest b x = Some x' -> forall q, apart (dest ++ [T "bundle.yaml"]) q -> get q x' = get q x.
Proof.
  intros ps dest b x x' H q Hq.
  assert (P : put (dest ++ [T "bundle.yaml"]) (File (manifest ps b)) x = Some x').
  { unfold bundle_context in H. destruct (get dest x) as [[]|]; try discriminate; [|exact H]. destruct (get (dest ++ [T "bundle.yaml"]) x) as [[]|]; try discriminate; exact H. }
  exact (get_put_apart _ _ _ _ _ P Hq).
Qed.
Print Assumptions C210_only.
(** In a manifest, lines that are blank do not matter. *)
Lemma read_blank l u r : blanks u -> forall b, read_manifest b (l ++ u :: r) = read_manifest b (l ++ r).
Proof.
  intros U. induction l as [|a l IH]; intros b; cbn [app read_manifest].
  - assert (E : trim u = []). { unfold trim. destruct (trim_start_spec u) as (v & _ & X). assert (F : forallb is_ws u = true) by (apply forallb_forall; intros c Hc; apply U, Hc). rewrite <- (app_nil_r u), trim_start_app_ws by exact F. reflexivity. }
    rewrite E. destruct b; reflexivity.
  - rewrite !IH. reflexivity.
Qed.
Theorem C210_blank_lines : forall dir x x' l u r, Forall one_line (l ++ r) -> one_line u -> blanks u -> l ++ r <> [] -> get (dir ++ [T "bundle.yaml"]) x = Some (File (join [ascii_of_nat 10] (l ++ u :: r) ++ [ascii_of_nat 10])) ->
  get (dir ++ [T "bundle.yaml"]) x' = Some (File (join [ascii_of_nat 10] (l ++ r) ++ [ascii_of_nat 10])) -> unbundle_context dir x = unbundle_context dir x'.
Proof.
  intros dir x x' l u r H Hu U N E E'. unfold unbundle_context. rewrite E, E'. change (ascii_of_nat 10) with NL. rewrite !file_lines_of, !read_chomp.
  rewrite (split_join NL (l ++ u :: r)), (split_join NL (l ++ r)); [f_equal; apply read_blank, U|exact N|exact H|destruct l; discriminate|].
  apply Forall_app in H. destruct H as [H1 H2]. apply Forall_app. split; [exact H1|]. constructor; assumption.
Qed.
Print Assumptions C210_blank_lines.
Example C210_example : exists x', bundle_context [T "python-3.9"; T " maya-2024"] [T "b"] true demo_disk = Some x' /\ unbundle_context [T "b"] x' = Some [T "python-3.9"; T " maya-2024"] /\ unbundle_context [T "c"] x' = None.
Proof. eexists. split; [reflexivity|]. split; vm_compute; reflexivity. Qed.

(** ** C211 *)
(** Of a bundle made by the command [unbundle_context] gives one entry, and that is not a package. *)
Theorem C211_exact_partial : forall io parses resolve place now json rxt ord a bases x x' n rs o,
  bundle io parses resolve place now json rxt ord a bases x = Ran true x' n -> bundle_request a = Some (rs, o) ->
  one_line (bundle_name a rs) -> one_line now -> Forall one_line rs -> (forall p, In p (resolved resolve rs) -> one_line (fst p) /\ one_line (snd (named p))) ->
  unbundle_context (place (bundle_output (bundle_name a rs) o)) x' = Some (match resolved resolve rs with [] => [] | p :: _ => [trim_end (T "name: " ++ fst p)] end).
Proof.
  intros io parses resolve place now json rxt ord a bases x x' n rs o H Hr H1 H2 H3 H4. destruct (bundle_good _ _ _ _ _ _ _ _ _ _ _ _ _ H) as (rs' & o' & Hr' & Hm).
  rewrite Hr in Hr'. injection Hr' as <- <-. apply make_bundle_good in Hm. destruct Hm as (_ & _ & _ & _ & _ & _ & _ & _ & _ & _ & _ & Hy & _). unfold unbundle_context. rewrite Hy. f_equal.
  apply yaml_read; [exact H1|exact H2|exact H3|]. apply Forall_forall. intros p Hp. specialize (H4 p Hp). rewrite named_eq in H4. exact H4.
Qed.
Print Assumptions C211_exact_partial.
Theorem C211_refuted : exists a x', demo_bundle calm_calls (fun _ => Some [(T "a", Some (T "1")); (T "b", Some (T "2"))]) a [[T "repo"]] demo_disk = Ran true x' 12 /\ unbundle_context [T "out"] x' = Some [T "name: a"].
Proof. exists (demo_args [T "a"; T "b"] (Some (T "out"))). eexists. split; [vm_compute; reflexivity|]. vm_compute. reflexivity. Qed.
Print Assumptions C211_refuted.

(** ** C212 *)
Theorem C212_list : forall base x, (forall y, get base x = Some y -> tidy y) -> (forall n, In n (list_bundles base x) <-> has_bundle base n x) /\ sorted_by text_cmp (list_bundles base x) /\ NoDup (list_bundles base x).
Proof. intros base x H. split; [intros n; apply list_bundles_spec, H|]. split; [apply list_bundles_sorted|apply list_bundles_nodup, H]. Qed.
Print Assumptions C212_list.
(** What was bundled below a directory is listed there. *)
Theorem C212_bundled : forall ps base n b x x', bundle_context ps (base ++ [n]) b x = Some x' -> (forall y, get base x' = Some y -> tidy y) -> In n (list_bundles base x').
Proof.
  intros ps base n b x x' H Ht. apply (list_bundles_spec base x' n Ht).
  assert (P : put ((base ++ [n]) ++ [T "bundle.yaml"]) (File (manifest ps b)) x = Some x').
  { unfold bundle_context in H. destruct (get (base ++ [n]) x) as [[]|]; try discriminate; [|exact H]. destruct (get ((base ++ [n]) ++ [T "bundle.yaml"]) x) as [[]|]; try discriminate; exact H. }
  split.
  - eapply get_put_dir; [exact P|apply under_app|apply not_eq_sym, snoc_ne].
  - unfold absent. replace (base ++ [n; T "bundle.yaml"]) with ((base ++ [n]) ++ [T "bundle.yaml"]) by (rewrite <- app_assoc; reflexivity). rewrite (get_put_same _ _ _ _ P). discriminate.
Qed.
Print Assumptions C212_bundled.
Example C212_example : list_bundles [T "b"] (Dir [(T "b", Dir [(T "z", Dir [(T "bundle.yaml", File [])]); (T "x", Dir []); (T "bundle.yaml", File []); (T "a", Dir [(T "bundle.yaml", File [])])])]) = [T "a"; T "z"].
Proof. reflexivity. Qed.

(** ** C213 *)
Theorem C213_request : forall a rs o, bundle_request a = Some (rs, o) <->
  rs <> [] /\ ((exists d, b_output a = Some d /\ o = Some d /\ b_packages a = rs) \/
               (b_output a = None /\ exists d, o = Some d /\ b_packages a = rs ++ [d] /\ pathlike d) \/
               (b_output a = None /\ o = None /\ b_packages a = rs /\ ~ pathlike (last rs []))).
Proof. exact request_spec. Qed.
Print Assumptions C213_request.
(** A directory given by a name without a separator is a request, although there is such a directory. *)
Theorem C213_refuted : exists a x, dir_at (demo_place (last (b_packages a) [])) x /\ bundle_request a = Some ([T "python"; T "out"], None).
Proof. exists (demo_args [T "python"; T "out"] None), (Dir [(T "out", Dir [])]). split; [exists []; reflexivity|reflexivity]. Qed.
Print Assumptions C213_refuted.
(** Nothing is done without a request that is left and can be read. *)
Theorem C213_nothing : forall io parses resolve place now json rxt ord a bases x,
  (bundle_request a = None \/ exists rs o r, bundle_request a = Some (rs, o) /\ In r rs /\ parses r = false) -> bundle io parses resolve place now json rxt ord a bases x = Ran false x 0.
Proof.
  intros io parses resolve place now json rxt ord a bases x [H|(rs & o & r & H & Hi & Hr)]; unfold bundle; rewrite H; [reflexivity|].
  replace (forallb parses rs) with false; [reflexivity|]. symmetry. destruct (forallb parses rs) eqn:E; [|reflexivity]. rewrite forallb_forall in E. rewrite (E r Hi) in Hr. discriminate.
Qed.
Print Assumptions C213_nothing.
Example C213_example :
  bundle_request (demo_args [T "python-3.9"; T "maya-2024"; T "/tmp/b"] None) = Some ([T "python-3.9"; T "maya-2024"], Some (T "/tmp/b")) /\
  bundle_request (demo_args [T "a"; T "b/c"] (Some (T "d"))) = Some ([T "a"; T "b/c"], Some (T "d")) /\ bundle_request (demo_args [T "./out"] None) = None.
Proof. repeat split. Qed.

(** ** C214 *)
Theorem C214_partial : forall a b ps qs, b_name a = None -> b_name b = None -> ps <> [] -> qs <> [] ->
  (forall p c, In p ps -> In c p -> ~ separating c) -> (forall p c, In p qs -> In c p -> ~ separating c) -> bundle_name a ps = bundle_name b qs -> ps = qs.
Proof. intros a b ps qs Ha Hb Hp Hq Fp Fq. apply name_inj; auto; apply Forall_forall; intros p Hi c; eauto. Qed.
Print Assumptions C214_partial.
(** Bundles of different requests are made in one directory, and what the first one holds stays. *)
Theorem C214_refuted : exists rs1 rs2, rs1 <> rs2 /\ (forall a b, b_name a = None -> b_name b = None -> bundle_output (bundle_name a rs1) None = bundle_output (bundle_name b rs2) None).
Proof. exists [T "a-1.2"], [T "a"; T "1_2"]. split; [discriminate|]. intros a b Ha Hb. unfold bundle_name. rewrite Ha, Hb. reflexivity. Qed.
Print Assumptions C214_refuted.
Theorem C214_given : forall a rs n, b_name a = Some n -> bundle_name a rs = n.
Proof. intros a rs n H. unfold bundle_name. rewrite H. reflexivity. Qed.
Print Assumptions C214_given.
Example C214_example : bundle_output (bundle_name (demo_args [] None) [T "python-3.9"; T "maya"]) None = T "./python_3_9_maya".
Proof. reflexivity. Qed.

(** ** C215 *)
(** Without failing calls, into a new directory: each package is there as in the first path that has it, and nothing is there of the others. *)
Theorem C215_complete_partial : forall parses resolve place now json rxt ord a bases x x' n rs o ps,
  bundle calm_calls parses resolve place now json rxt ord a bases x = Ran true x' n -> bundle_request a = Some (rs, o) -> resolve rs = Some ps -> b_skip_copy a = false ->
  NoDup (map named ps) -> absent (place (bundle_output (bundle_name a rs) o)) x -> (forall b, In b bases -> apart (place (bundle_output (bundle_name a rs) o)) b) ->
  (forall p src y, In p (map named ps) -> source_of bases p x src -> get src x = Some y -> dir_at src x /\ ordinary y /\ tidy y) ->
  forall p, In p ps ->
    (forall src y, source_of bases (named p) x src -> get src x = Some y -> forall r, seen (slot (place (bundle_output (bundle_name a rs) o)) (named p) ++ r) x' = seen r y) /\
    ((forall src, ~ source_of bases (named p) x src) -> absent (slot (place (bundle_output (bundle_name a rs) o)) (named p)) x').
Proof.
  intros parses resolve place now json rxt ord a bases x x' n rs o ps H Hr Hs Hk Hn Ha Hb Hg. destruct (bundle_good _ _ _ _ _ _ _ _ _ _ _ _ _ H) as (rs' & o' & Hr' & Hm).
  rewrite Hr in Hr'. injection Hr' as <- <-. set (out_text := bundle_output (bundle_name a rs) o) in *. set (out := place out_text) in *. apply make_bundle_good in Hm.
  destruct Hm as (x1 & n1 & x2 & n2 & x3 & n3 & H1 & H2 & H3 & Hp & _). fold out in H1, H2, H3, Hp. rewrite Hk in H3. assert (Er : resolved resolve rs = ps) by (unfold resolved; rewrite Hs; reflexivity). rewrite Er in H3.
  assert (D1 : forall c, get (out ++ [c]) x1 = None).
  { apply make_dir_good in H1. destruct H1 as [[[es D] _]|[_ H1]]; [unfold absent in Ha; congruence|]. intros c. rewrite (get_put_under _ _ _ _ _ H1). reflexivity. }
  assert (D2 : put (out ++ [T "packages"]) (Dir []) x1 = Some x2).
  { apply make_dir_good in H2. destruct H2 as [[[es D] _]|[_ H2]]; [rewrite D1 in D; discriminate|exact H2]. }
  assert (F : fills out x x2).
  { pose proof (make_dir_fills calm_calls out x 0) as F1. rewrite H1 in F1. pose proof (make_dir_fills calm_calls (out ++ [T "packages"]) x1 n1) as F2. rewrite H2 in F2. cbn [fills_res] in F1, F2. eapply fills_trans; [exact F1|]. eapply fills_below; [|exact F2]. apply under_app. }
  assert (N : forall c r, get (out ++ T "packages" :: c :: r) x2 = None).
  { intros c r. replace (out ++ T "packages" :: c :: r) with ((out ++ [T "packages"]) ++ c :: r) by (rewrite <- app_assoc; reflexivity). rewrite (get_put_under _ _ _ _ _ D2). reflexivity. }
  destruct (copy_packages_calm bases out ps Hb Hn x2 n2) as (x3' & n3' & E & _ & S).
  - intros p src y Hi Hsrc Hy. apply (elsewhere_source bases out x x2) in Hsrc; auto. destruct (source_base _ _ _ _ Hsrc) as (b & Hbb & ->). rewrite (elsewhere_get bases out x x2 b) in Hy by auto.
    destruct (Hg p _ y Hi Hsrc Hy) as (D & G). split; [|exact G]. destruct D as (es & D). exists es. rewrite (elsewhere_get bases out x x2 b) by auto. exact D.
  - exists []. eapply get_put_same, D2.
  - intros p _. split; [apply N|left; apply (N (fst p) [])].
  - rewrite H3 in E. injection E as <- <-. intros p Hi. destruct (S p Hi) as [S1 S2]. split.
    + intros src y Hsrc Hy r. unfold slot. rewrite <- app_assoc. unfold seen at 1. cbn [app]. rewrite Hp. change (seen (out ++ T "packages" :: fst (named p) :: snd (named p) :: r) x3 = seen r y).
      replace (out ++ T "packages" :: fst (named p) :: snd (named p) :: r) with (slot out (named p) ++ r) by (unfold slot; rewrite <- app_assoc; reflexivity).
      apply (S1 src y); [apply (elsewhere_source bases out x x2); auto|]. destruct (source_base _ _ _ _ Hsrc) as (b & Hbb & ->). rewrite (elsewhere_get bases out x x2 b) by auto. exact Hy.
    + intros Hno. unfold absent, slot. rewrite Hp. apply S2. intros src C. apply (Hno src). apply (elsewhere_source bases out x x2) in C; auto.
Qed.
Print Assumptions C215_complete_partial.
(** A copy that went well leaves the source over what was there. *)
Theorem C215_copy_partial : forall io src dest x n x' n' y, apart src dest -> get src x = Some y -> tidy y -> copy_source io src dest x n = Ran true x' n' ->
  forall r, seen (dest ++ r) x' = match seen r y with Some k => Some k | None => seen (dest ++ r) x end.
Proof.
  intros io src dest x n x' n' y Ha Hy Ht H. unfold copy_source in H. rewrite Hy in H. destruct y as [c|t| |es]; try (destruct (make_dir io dest x n); discriminate).
  rewrite (apart_not_leads _ _ Ha) in H. intros r. exact (copy_over_good io (Dir es) dest x n x' n' Ht H r).
Qed.
Print Assumptions C215_copy_partial.
(** The command reports success although nothing was resolved ... *)
Theorem C215_unresolved_refuted : exists a x', demo_bundle calm_calls (fun _ => None) a [[T "repo"]] demo_disk = Ran true x' 8 /\ get [T "out"; T "packages"] x' = Some (Dir []).
Proof. exists (demo_args [T "a"] (Some (T "out"))). eexists. split; [vm_compute; reflexivity|reflexivity]. Qed.
Print Assumptions C215_unresolved_refuted.
(** ... although a call failed and a file is missing ... *)
Theorem C215_failed_refuted : exists io a x' n, demo_bundle io demo_resolve a [[T "repo"]] demo_disk = Ran true x' n /\ dir_at [T "out"; T "packages"; T "a"; T "1"] x' /\ absent [T "out"; T "packages"; T "a"; T "1"; T "package.py"] x'.
Proof. exists (fun n => if Nat.eqb n 3 then Some None else None), (demo_args [T "a"] (Some (T "out"))). eexists. exists 10. split; [vm_compute; reflexivity|]. split; [eexists; reflexivity|reflexivity]. Qed.
Print Assumptions C215_failed_refuted.
(** ... although the package is nowhere ... *)
Theorem C215_missing_refuted : exists a x' n, demo_bundle calm_calls demo_resolve a [[T "other"]] demo_disk = Ran true x' n /\ absent [T "out"; T "packages"; T "a"] x'.
Proof. exists (demo_args [T "a"] (Some (T "out"))). eexists. exists 8. split; [vm_compute; reflexivity|reflexivity]. Qed.
Print Assumptions C215_missing_refuted.
(** ... and although a file of an earlier bundle is still there. *)
Theorem C215_stale_refuted : exists a x x' n, demo_bundle calm_calls demo_resolve a [[T "repo"]] x = Ran true x' n /\ absent [T "repo"; T "a"; T "1"; T "old.py"] x /\
  seen [T "out"; T "packages"; T "a"; T "1"; T "old.py"] x' = Some (KFile (T "old")).
Proof.
  exists (demo_args [T "a"] (Some (T "out"))), (Dir [(T "repo", Dir [(T "a", Dir [(T "1", demo_a1)])]); (T "out", Dir [(T "packages", Dir [(T "a", Dir [(T "1", Dir [(T "old.py", File (T "old"))])])])])]).
  eexists. exists 12. split; [vm_compute; reflexivity|]. split; reflexivity.
Qed.
Print Assumptions C215_stale_refuted.
Example C215_example : let x' := disk_of (demo_bundle calm_calls demo_resolve (demo_args [T "a"; T "x/out"] None) [[T "none"]; [T "repo"]] demo_disk) in
  source_of [[T "none"]; [T "repo"]] (T "a", T "1") demo_disk [T "repo"; T "a"; T "1"] /\ seen [T "x"; T "out"; T "packages"; T "a"; T "1"; T "bin"; T "run"] x' = Some (KFile (T "go")) /\ ordinary demo_a1 /\ tidy demo_a1.
Proof.
  cbn zeta. split.
  - exists [[T "none"]], [T "repo"], []. split; [reflexivity|]. split; [reflexivity|]. split; [discriminate|]. intros q [<-|[]]. reflexivity.
  - split; [vm_compute; reflexivity|]. split; [cbn; auto|]. cbn. repeat split; repeat constructor; cbn; intuition discriminate.
Qed.

(** ** C216 *)
(** Whatever fails: what is not in the directory of the bundle stays. *)
Theorem C216_only : forall io parses resolve place now json rxt ord a bases x ok x' n, bundle io parses resolve place now json rxt ord a bases x = Ran ok x' n ->
  x' = x \/ exists rs o, bundle_request a = Some (rs, o) /\ only_at (place (bundle_output (bundle_name a rs) o)) x x'.
Proof.
  intros io parses resolve place now json rxt ord a bases x ok x' n H. destruct (bundle_fills _ _ _ _ _ _ _ _ _ _ _ _ _ _ H) as [->|(rs & o & Hr & F)]; [left; reflexivity|]. right. exists rs, o. split; [exact Hr|].
  intros q Hq. exact (fills_apart _ _ _ _ F Hq).
Qed.
Print Assumptions C216_only.
(** A bundle that was made has its six files, the first three as expected. *)
Theorem C216_files : forall io parses resolve place now json rxt ord a bases x x' n rs o, bundle io parses resolve place now json rxt ord a bases x = Ran true x' n -> bundle_request a = Some (rs, o) ->
  let out := place (bundle_output (bundle_name a rs) o) in let ps := match resolve rs with Some ps => ps | None => [] end in
  get (out ++ [T "bundle.json"]) x' = Some (File (json rs ps)) /\ get (out ++ [T "context.rxt"]) x' = Some (File (rxt rs ps)) /\
  get (out ++ [T "bundle.yaml"]) x' = Some (File (bundle_yaml (bundle_name a rs) now rs ps)) /\ (exists c, get (out ++ [T "activate.sh"]) x' = Some (File c)).
Proof.
  intros io parses resolve place now json rxt ord a bases x x' n rs o H Hr. cbn zeta. destruct (bundle_good _ _ _ _ _ _ _ _ _ _ _ _ _ H) as (rs' & o' & Hr' & Hm).
  rewrite Hr in Hr'. injection Hr' as <- <-. apply make_bundle_good in Hm. destruct Hm as (_ & _ & _ & _ & _ & _ & _ & _ & _ & _ & Hj & Hy & Hc & Ha). split; [exact Hj|]. split; [exact Hc|]. split; [exact Hy|]. eauto.
Qed.
Print Assumptions C216_files.
Example C216_example : let r := demo_bundle (fun n => if Nat.eqb n 5 then Some (Some (T "half")) else None) demo_resolve (demo_args [T "a"] (Some (T "out"))) [[T "repo"]] demo_disk in
  exists x', r = Ran true x' 12 /\ get [T "repo"] x' = get [T "repo"] demo_disk /\ get [T "out"; T "packages"; T "a"; T "1"; T "bin"; T "run"] x' = Some (File (T "half")).
Proof. cbn zeta. eexists. split; [vm_compute; reflexivity|]. split; reflexivity. Qed.

(** ** C217 *)
Definition quiet (s : text) : Prop := ~ In "`"%char s /\ ~ In "$"%char s.
Lemma quiet_app a b : quiet a -> quiet b -> quiet (a ++ b).
Proof. intros [A1 A2] [B1 B2]. split; intros C; apply in_app_or in C; tauto. Qed.
Lemma quiet_no_expansion s : quiet s -> no_expansion s.
Proof. intros [H1 H2]. split; [exact H1|]. intros a d b ->. exfalso. apply H2. apply in_or_app. right. left. reflexivity. Qed.
Lemma quiet_path_join a b : quiet a -> quiet b -> quiet (path_join a b).
Proof. intros Ha Hb. unfold path_join. destruct (starts_with (T "/") b); [exact Hb|]. destruct (is_nil a || ends_with (T "/") a); repeat apply quiet_app; auto. split; cbn; intuition discriminate. Qed.
Lemma quiet_join l : Forall quiet l -> quiet (join (T ":") l).
Proof.
  induction 1 as [|s l Hs Hl IH]; [split; intros []|]. destruct l as [|t l]; [exact Hs|]. change (join (T ":") (s :: t :: l)) with (s ++ T ":" ++ join (T ":") (t :: l)).
  apply quiet_app; [exact Hs|]. apply quiet_app; [split; cbn; intuition discriminate|exact IH].
Qed.
(** bash reads from the script: the root of each package, the bin directories of the packages that have one, the last package first, and nothing else. *)
Theorem C217_sourced_partial : forall io parses resolve place now json rxt ord a bases x x' n rs o,
  bundle io parses resolve place now json rxt ord a bases x = Ran true x' n -> bundle_request a = Some (rs, o) -> any_order ord ->
  let out_text := bundle_output (bundle_name a rs) o in let ps := match resolve rs with Some ps => ps | None => [] end in
  dir_text out_text -> quiet out_text ->
  (forall p, In p ps -> shell_name (upper (fst p) ++ T "_ROOT") /\ dir_text (fst p) /\ relative (fst p) /\ relative (snd (named p)) /\ dir_text (snd (named p)) /\ quiet (fst p) /\ quiet (snd (named p))) ->
  NoDup (map (fun p => upper (fst p)) ps) ->
  exists script acts, get (place out_text ++ [T "activate.sh"]) x' = Some (File script) /\ Reads script acts /\
    (forall p, In p ps -> exported acts (upper (fst p) ++ T "_ROOT") = Some (root_text out_text (fst p) (snd (named p)))) /\
    (exists qs, filter (fun p => exists_at (slot (place out_text) (named p) ++ [T "bin"]) x') ps = qs /\
       exported acts (T "PATH") = match qs with [] => None | _ => Some (join (T ":") (rev (map (fun p => root_text out_text (fst p) (snd (named p)) ++ T "/bin") qs))) end) /\
    (forall k, exported acts k <> None -> k = T "PATH" \/ exists p, In p ps /\ k = upper (fst p) ++ T "_ROOT").
Proof.
  intros io parses resolve place now json rxt ord a bases x x' n rs o H Hr Ho. cbn zeta. set (out_text := bundle_output (bundle_name a rs) o). set (ps := match resolve rs with Some ps => ps | None => [] end).
  intros Hd Hq Hp Hn. destruct (bundle_good _ _ _ _ _ _ _ _ _ _ _ _ _ H) as (rs' & o' & Hr' & Hm). rewrite Hr in Hr'. injection Hr' as <- <-. apply make_bundle_good in Hm. fold out_text in Hm.
  destruct Hm as (_ & _ & _ & _ & _ & _ & _ & _ & _ & _ & _ & _ & _ & Ha). change (resolved resolve rs) with ps in Ha.
  set (hb := bin_at (place out_text) x') in *. set (vars := fold_left (script_vars_with hb out_text) ps []).
  destruct (script_keys hb out_text ps) as [Nk Kv]. fold vars in Nk, Kv.
  assert (Rt : forall p, In p ps -> package_root out_text (fst p) (version_text (snd p)) = root_text out_text (fst p) (snd (named p))).
  { intros p Hi. destruct (Hp p Hi) as (_ & H1 & H2 & H3 & _). rewrite named_eq in *. apply package_root_text; auto. }
  assert (Qr : forall p, In p ps -> quiet (package_root out_text (fst p) (version_text (snd p)))).
  { intros p Hi. destruct (Hp p Hi) as (_ & _ & _ & _ & _ & H1 & H2). rewrite named_eq in H2. unfold package_root. repeat apply quiet_path_join; auto. split; cbn; intuition discriminate. }
  assert (Bn : bins hb out_text ps = map (fun p => root_text out_text (fst p) (snd (named p)) ++ T "/bin") (filter hb ps)).
  { unfold bins. apply map_ext_in. intros p Hi. apply filter_In in Hi. destruct Hi as [Hi _]. rewrite (Rt p Hi). destruct (Hp p Hi) as (_ & _ & _ & _ & H1 & _). rewrite path_join_slash; [reflexivity| |intros r E; discriminate].
    unfold root_text. repeat apply dir_text_app. exact H1. }
  destruct (C30_bash_script_partial ord (script_env hb out_text ps) Ho eq_refl) as (vs & als & Pv & Pa & Rd).
  - cbn [script_env e_vars]. fold vars. intros k v Hi. destruct (Kv k v Hi) as [(-> & _ & ->)|(p & Hi' & -> & ->)].
    + split; [repeat split; discriminate|]. apply quiet_no_expansion, quiet_join. apply Forall_forall. intros b Hb. apply in_rev in Hb. unfold bins in Hb. apply in_map_iff in Hb. destruct Hb as (p & <- & Hi2). apply filter_In in Hi2. destruct Hi2 as [Hi2 _].
      apply quiet_path_join; [apply Qr, Hi2|split; cbn; intuition discriminate].
    + split; [apply Hp, Hi'|apply quiet_no_expansion, Qr, Hi'].
  - intros k v [].
  - intros p [].
  - intros m [].
  - cbn [script_env e_vars e_aliases e_sourced] in Pv, Pa, Rd. fold vars in Pv.
    eexists. eexists. split; [exact Ha|]. split; [exact Rd|].
    assert (Nv : NoDup (map fst vs)) by (eapply Permutation.Permutation_NoDup; [apply Permutation.Permutation_map, Permutation.Permutation_sym, Pv|exact Nk]).
    assert (Ag : forall k, exported (map (fun kv => Export (fst kv) (snd kv)) vs ++ map (fun kv => Aliased (fst kv) (snd kv)) als ++ map Sourced []) k = aget k vars).
    { intros k. rewrite (C30_bash_values vs als [] k Nv). destruct (aget k vs) as [v|] eqn:E.
      - symmetry. apply aget_nodup; [exact Nk|]. apply aget_in in E. eapply Permutation.Permutation_in; [exact Pv|exact E].
      - symmetry. apply aget_none. apply aget_none in E. intros C. apply E. unfold akeys in *. eapply Permutation.Permutation_in; [apply Permutation.Permutation_map, Permutation.Permutation_sym, Pv|exact C]. }
    split; [|split].
    + intros p Hi. rewrite Ag. destruct (in_split _ _ Hi) as (l & r & E). unfold vars. rewrite E, script_root, (Rt p Hi); [reflexivity|]. intros q Hq' C. rewrite E, map_app in Hn. cbn [map] in Hn. apply NoDup_remove_2 in Hn. apply Hn. apply in_or_app. right.
      rewrite <- C. apply (in_map (fun p => upper (fst p))), Hq'.
    + exists (filter hb ps). split; [apply filter_ext; intros p; unfold hb, bin_at; rewrite named_slot, <- app_assoc; reflexivity|]. rewrite Ag. unfold vars. rewrite script_path, Bn.
      destruct (filter hb ps) as [|q qs]; [reflexivity|]. assert (M : forall l : list text, l <> [] -> match rev l with [] => None | b :: r => Some (join (T ":") (b :: r)) end = Some (join (T ":") (rev l))).
      { intros l Hl. destruct (rev l) eqn:E; [|reflexivity]. exfalso. apply Hl. rewrite <- (rev_involutive l), E. reflexivity. }
      apply M. discriminate.
    + intros k Hk. rewrite Ag in Hk. destruct (aget k vars) as [v|] eqn:E; [|contradiction]. apply aget_in in E. destruct (Kv k v E) as [(-> & _)|(p & Hi & -> & _)]; [left; reflexivity|right; eauto].
Qed.
Print Assumptions C217_sourced_partial.
(** The name of the variable is not one that a shell accepts for packages with a hyphen, a dot or a digit at the start. *)
Theorem C217_names_refuted : exists a b c, (forall n v, In (n, v) [(a, T "1"); (b, T "1"); (c, T "1")] -> ~ shell_name (upper n ++ T "_ROOT")) /\ a = T "my-tool" /\ b = T "my.tool" /\ c = T "7zip".
Proof.
  exists (T "my-tool"), (T "my.tool"), (T "7zip"). split; [|auto]. intros n v H [[_ W] D]. cbn [In] in H. destruct H as [H|[H|[H|[]]]]; injection H as <- <-.
  - vm_compute in W. discriminate.
  - vm_compute in W. discriminate.
  - vm_compute in D. discriminate.
Qed.
Print Assumptions C217_names_refuted.
(** bash cannot read the script of such a package: it has an export that is none. *)
Theorem C217_unread_refuted : exists x' n script, demo_bundle calm_calls (fun _ => Some [(T "7zip", Some (T "1"))]) (demo_args [T "7zip"] (Some (T "out"))) [] demo_disk = Ran true x' n /\
  get [T "out"; T "activate.sh"] x' = Some (File script) /\ forall acts, ~ Reads script acts.
Proof.
  eexists. exists 8. eexists. split; [vm_compute; reflexivity|]. split; [reflexivity|]. intros acts (m & H). specialize (H (m + 20) ltac:(lia)).
  replace (m + 20) with (20 + m) in H by lia. vm_compute in H. discriminate.
Qed.
Print Assumptions C217_unread_refuted.
Example C217_example : let x' := disk_of (demo_bundle calm_calls demo_resolve (demo_args [T "a"] (Some (T "/out"))) [[T "repo"]] demo_disk) in
  exists script, get [T "out"; T "activate.sh"] x' = Some (File script) /\ Reads script [Export (T "A_ROOT") (T "/out/packages/a/1"); Export (T "PATH") (T "/out/packages/a/1/bin")].
Proof.
  cbn zeta. eexists. split; [vm_compute; reflexivity|]. exists 20. intros f Hf. replace f with (20 + (f - 20)) by lia. generalize (f - 20). intros n. vm_compute. reflexivity.
Qed.

(** ** C218 *)
(** Without a directory given the roots in the script are relative: they hold only where the command was run. *)
Theorem C218_relative_refuted : forall a rs name version, bundle_request a = Some (rs, None) -> relative (bundle_name a rs) -> relative name -> relative version ->
  exists r, package_root (bundle_output (bundle_name a rs) None) name version = "."%char :: r.
Proof.
  intros a rs name version _ Hr Rn Rv. cbn [bundle_output]. assert (E : path_join (T ".") (bundle_name a rs) = T "./" ++ bundle_name a rs).
  { rewrite path_join_slash; [reflexivity| |exact Hr]. split; [discriminate|]. intros r E. change (T ".") with ([] ++ ["."%char]) in E. change (T "/") with ["/"%char] in E. apply app_inj_tail in E. destruct E as [_ E]. discriminate. }
  rewrite E. assert (J : forall s b, relative b -> exists r, path_join ("."%char :: s) b = "."%char :: r).
  { intros s b Hb. unfold path_join. destruct (starts_with (T "/") b) eqn:Es; [apply starts_with_spec in Es; destruct Es as (t & Es); exfalso; exact (Hb t Es)|]. destruct (is_nil ("."%char :: s) || ends_with (T "/") ("."%char :: s)); eexists; reflexivity. }
  unfold package_root. destruct (J (T "/" ++ bundle_name a rs) (T "packages") ltac:(intros t Et; discriminate)) as (r1 & E1). change (T "./" ++ bundle_name a rs) with ("."%char :: T "/" ++ bundle_name a rs). rewrite E1.
  destruct (J r1 name Rn) as (r2 & E2). rewrite E2. destruct (J r2 version Rv) as (r3 & E3). rewrite E3. exists r3. reflexivity.
Qed.
Print Assumptions C218_relative_refuted.
(** Reading the script, the path is what the script says: what was in it before is lost. *)
Theorem C218_path_refuted : exists x' n script acts, demo_bundle calm_calls demo_resolve (demo_args [T "a"] None) [[T "repo"]] demo_disk = Ran true x' n /\
  get [T "."; T "a"; T "activate.sh"] x' = Some (File script) /\ Reads script acts /\ exported acts (T "PATH") = Some (T "./a/packages/a/1/bin").
Proof.
  eexists. exists 12. eexists. exists [Export (T "A_ROOT") (T "./a/packages/a/1"); Export (T "PATH") (T "./a/packages/a/1/bin")]. split; [vm_compute; reflexivity|]. split; [reflexivity|]. split; [|reflexivity].
  exists 20. intros f Hf. replace f with (20 + (f - 20)) by lia. generalize (f - 20). intros n. vm_compute. reflexivity.
Qed.
Print Assumptions C218_path_refuted.

(** ** C219 *)
(** The packages a bundle is made of stay as they are if their paths are apart from the bundle. *)
Theorem C219_partial : forall io parses resolve place now json rxt ord a bases x ok x' n rs o, bundle io parses resolve place now json rxt ord a bases x = Ran ok x' n -> bundle_request a = Some (rs, o) ->
  (forall b, In b bases -> apart (place (bundle_output (bundle_name a rs) o)) b) -> forall b r, In b bases -> get (b ++ r) x' = get (b ++ r) x.
Proof.
  intros io parses resolve place now json rxt ord a bases x ok x' n rs o H Hr Hb b r Hi. destruct (bundle_fills _ _ _ _ _ _ _ _ _ _ _ _ _ _ H) as [->|(rs' & o' & Hr' & F)]; [reflexivity|].
  rewrite Hr in Hr'. injection Hr' as <- <-. eapply elsewhere_get; [exact Hb|exact F|exact Hi].
Qed.
Print Assumptions C219_partial.
(** A bundle made again from its own packages empties them, and the command reports success. *)
Theorem C219_refuted : exists a x x' n, demo_bundle calm_calls demo_resolve a [[T "out"; T "packages"]] x = Ran true x' n /\
  seen [T "out"; T "packages"; T "a"; T "1"; T "bin"; T "run"] x = Some (KFile (T "go")) /\ seen [T "out"; T "packages"; T "a"; T "1"; T "bin"; T "run"] x' = Some (KFile []).
Proof.
  exists (demo_args [T "a"] (Some (T "out"))), (disk_of (demo_bundle calm_calls demo_resolve (demo_args [T "a"] (Some (T "out"))) [[T "repo"]] demo_disk)). eexists. exists 12. split; [vm_compute; reflexivity|]. split; vm_compute; reflexivity.
Qed.
Print Assumptions C219_refuted.
