(** Proofs about making bundles. *)
From Verif Require Import Base Base_lemmas Text_lemmas Maps Sorting Range_model Files_model Files_spec Files_proofs Query_model Env_model Rex_model Bundle_model Bundle_spec Bundle_text.
Open Scope string_scope. Open Scope list_scope.

(** ** what is put where *)
(** a sequence of things put at [p] or below *)
Inductive fills (p : path) : node -> node -> Prop :=
| fills_refl x : fills p x x
| fills_put q y x x1 x2 : under p q -> put q y x = Some x1 -> fills p x1 x2 -> fills p x x2.
Lemma fills_trans p x y z : fills p x y -> fills p y z -> fills p x z.
Proof. induction 1; eauto using fills_put. Qed.
Lemma fills_below p q x y : under p q -> fills q x y -> fills p x y.
Proof. intros H. induction 1 as [x|r z x x1 x2 H1 H2 _ IH]; [constructor|]. eapply fills_put; [eapply under_trans; [exact H|exact H1]|exact H2|exact IH]. Qed.
Lemma fills_one p y x x' : put p y x = Some x' -> fills p x x'.
Proof. intros H. eapply fills_put; [apply under_refl|exact H|constructor]. Qed.
Lemma fills_apart p x x' q : fills p x x' -> apart p q -> get q x' = get q x.
Proof. intros H Hq. induction H as [x|r y x x1 x2 H1 H2 _ IH]; [reflexivity|]. rewrite IH. eapply get_put_apart; [exact H2|]. eapply apart_under; eauto. Qed.
(** a directory, or nothing *)
Definition open_at (q : path) (x : node) : Prop := get q x = None \/ dir_at q x.
Lemma fills_above p x x' q : fills p x x' -> under q p -> q <> p -> (open_at q x -> open_at q x') /\ (dir_at q x -> dir_at q x').
Proof.
  intros H Hq Hn. induction H as [x|r y x x1 x2 H1 H2 _ IH]; [auto|].
  assert (D : dir_at q x1).
  { eapply get_put_dir; [exact H2|eapply under_trans; eauto|]. intros ->. apply Hn. apply under_anti; assumption. }
  split; intros _; [apply IH; right; exact D|apply IH, D].
Qed.
Lemma put_open p y : forall x, (forall q, under q p -> q <> p -> open_at q x) -> exists x', put p y x = Some x'.
Proof.
  induction p as [|c p IH]; intros x H; [eexists; reflexivity|].
  destruct (H [] (under_nil _)) as [E|[es E]]; [discriminate|cbn in E; destruct x; discriminate E|]. destruct x as [| | |es']; try discriminate E. cbn [put].
  destruct (IH (match aget c es' with Some z => z | None => Dir [] end)) as [z Ez].
  - intros q Hq Hn. destruct (aget c es') as [z|] eqn:Ea.
    + destruct (H (c :: q)) as [E1|[fs E1]].
      * apply under_cons. auto.
      * congruence.
      * left. cbn in E1. rewrite Ea in E1. exact E1.
      * right. exists fs. cbn in E1. rewrite Ea in E1. exact E1.
    + destruct q as [|d q]; [right; exists []; reflexivity|left; reflexivity].
  - rewrite Ez. eauto.
Qed.
Section Io.
Variable io : nat -> option (option text).
(** [r] only fills [p] *)
Definition fills_res (p : path) (x : node) (r : ran) : Prop := match r with Ran _ x' _ => fills p x x' | Endless => True end.
Lemma and_then_fills p x r f : fills_res p x r -> (forall x' n, r = Ran true x' n -> fills p x x' -> fills_res p x' (f x' n)) -> fills_res p x (and_then r f).
Proof.
  intros H1 H2. destruct r as [[] x' n|]; cbn in *; auto. specialize (H2 x' n eq_refl H1). destruct (f x' n); cbn in *; auto. eapply fills_trans; eauto.
Qed.
Lemma make_dir_fills p x n : fills_res p x (make_dir io p x n).
Proof. unfold make_dir. destruct (io n); [constructor|]. destruct (get p x) as [[]|]; try constructor. destruct (put p (Dir []) x) eqn:E; [|constructor]. cbn. eapply fills_one, E. Qed.
Lemma write_file_fills p c x n : fills_res p x (write_file io p c x n).
Proof.
  assert (X : fills_res p x (match io n with Some None => Ran false x (S n) | Some (Some j) => Ran false (match put p (File j) x with Some x' => x' | None => x end) (S n) | None => match put p (File c) x with Some x' => Ran true x' (S n) | None => Ran false x (S n) end end)).
  { destruct (io n) as [[j|]|]; [destruct (put p (File j) x) eqn:E|constructor|destruct (put p (File c) x) eqn:E]; cbn; try constructor; eapply fills_one, E. }
  unfold write_file. destruct (get p x) as [[]|]; try exact X. constructor.
Qed.
Fixpoint copy_each (p : path) (l : list (text * node)) (x : node) (n : nat) : ran :=
  match l with [] => Ran true x n | (c, z) :: r => and_then (copy_over io (p ++ [c]) z x n) (copy_each p r) end.
Lemma copy_over_dir p es x n : copy_over io p (Dir es) x n = and_then (make_dir io p x n) (copy_each p es).
Proof.
  cbn [copy_over]. unfold and_then. destruct (make_dir io p x n) as [[] x' n'|]; try reflexivity. revert x' n'. induction es as [|[c z] es IH]; intros x' n'; [reflexivity|].
  cbn [copy_each]. unfold and_then. destruct (copy_over io (p ++ [c]) z x' n') as [[] x2 n2|]; try reflexivity. apply IH.
Qed.
Lemma copy_over_fills y : forall p x n, fills_res p x (copy_over io p y x n).
Proof.
  induction y as [c|t| |es IH] using node_rect2; intros p x n; try constructor.
  - apply write_file_fills.
  - rewrite copy_over_dir. apply and_then_fills; [apply make_dir_fills|]. intros x' n' _ _. revert x' n'. induction IH as [|[c z] es Hz _ IHl]; intros x' n'; [constructor|].
    cbn [copy_each]. apply and_then_fills; [|intros; apply IHl]. specialize (Hz (p ++ [c]) x' n'). cbn [snd] in Hz. destruct (copy_over io (p ++ [c]) z x' n'); cbn in *; auto. eapply fills_below; [|exact Hz]. apply under_app.
Qed.
Lemma copy_source_fills src dest x n : fills_res dest x (copy_source io src dest x n).
Proof.
  assert (X : fills_res dest x (match make_dir io dest x n with Ran _ x' n' => Ran false x' n' | Endless => Endless end)) by (pose proof (make_dir_fills dest x n) as H; destruct (make_dir io dest x n); exact H).
  unfold copy_source. destruct (get src x) as [[]|]; try exact X. destruct (leads src dest); [destruct (leads dest src); [apply copy_over_fills|]|apply copy_over_fills].
  pose proof (make_dir_fills dest x n) as H. destruct (make_dir io dest x n) as [[]|]; try exact H. exact I.
Qed.
Lemma copy_packages_fills skip bases out ps : forall x n, fills_res out x (copy_packages io skip bases out ps x n).
Proof.
  induction ps as [|[name v] ps IH]; intros x n; [constructor|]. cbn [copy_packages].
  destruct (if skip then None else find_source name (version_text v) bases x) as [src|]; [|apply IH].
  pose proof (copy_source_fills src (out ++ [T "packages"; name; version_text v]) x n) as H. destruct (copy_source io src _ x n) as [ok x' n'|]; [|exact I]. cbn in H.
  specialize (IH x' n'). destruct (copy_packages io skip bases out ps x' n'); cbn in *; auto. eapply fills_trans; [|exact IH]. eapply fills_below; [|exact H]. apply under_app.
Qed.
Lemma write_files_fills out fs : forall x n, fills_res out x (write_files io out fs x n).
Proof.
  induction fs as [|[f c] fs IH]; intros x n; [constructor|]. cbn [write_files]. apply and_then_fills; [|intros; apply IH].
  pose proof (write_file_fills (out ++ [f]) c x n) as H. destruct (write_file io (out ++ [f]) c x n); cbn in *; auto. eapply fills_below; [|exact H]. apply under_app.
Qed.
Section Command.
Variable parses : text -> bool.
Variable resolve : list text -> option (list (text * option text)).
Variable place : text -> path.
Variable now : text.
Variable json rxt : list text -> list (text * option text) -> text.
Variable ord : list (text * text) -> list (text * text).
Lemma make_bundle_fills a bases rs o x n : fills_res (place o) x (make_bundle io resolve place now json rxt ord a bases rs o x n).
Proof.
  unfold make_bundle. apply and_then_fills; [apply make_dir_fills|]. intros x1 n1 _ _.
  apply and_then_fills.
  { pose proof (make_dir_fills (place o ++ [T "packages"]) x1 n1) as H. destruct (make_dir io _ x1 n1); cbn in *; auto. eapply fills_below; [|exact H]. apply under_app. }
  intros x2 n2 _ _. apply and_then_fills; [apply copy_packages_fills|]. intros x3 n3 _ _. apply and_then_fills; [apply write_files_fills|]. intros x4 n4 _ _. apply write_files_fills.
Qed.
Lemma bundle_fills a bases x ok x' n : bundle io parses resolve place now json rxt ord a bases x = Ran ok x' n ->
  x' = x \/ exists rs o, bundle_request a = Some (rs, o) /\ fills (place (bundle_output (bundle_name a rs) o)) x x'.
Proof.
  unfold bundle. destruct (bundle_request a) as [[rs o]|]; [|intros E; injection E as <- <- <-; auto]. destruct (forallb parses rs); [|intros E; injection E as <- <- <-; auto].
  intros E. right. exists rs, o. split; [reflexivity|]. pose proof (make_bundle_fills a bases rs (bundle_output (bundle_name a rs) o) x 0) as H. rewrite E in H. exact H.
Qed.
End Command.

(** ** a copy that went well *)
Lemma and_then_good r f x n : and_then r f = Ran true x n -> exists x1 n1, r = Ran true x1 n1 /\ f x1 n1 = Ran true x n.
Proof. destruct r as [[] x1 n1|]; cbn; intros H; try discriminate. eauto. Qed.
Lemma make_dir_good p x n x' n' : make_dir io p x n = Ran true x' n' -> (dir_at p x /\ x' = x) \/ (get p x = None /\ put p (Dir []) x = Some x').
Proof.
  unfold make_dir. destruct (io n); [discriminate|]. destruct (get p x) as [[]|] eqn:E; try discriminate.
  - intros H. injection H as <- _. left. split; [eexists; exact E|reflexivity].
  - destruct (put p (Dir []) x) eqn:Ep; [|discriminate]. intros H. injection H as <- _. auto.
Qed.
Lemma write_file_good p c x n x' n' : write_file io p c x n = Ran true x' n' -> put p (File c) x = Some x' /\ ~ dir_at p x.
Proof.
  unfold write_file. assert (X : match io n with Some None => Ran false x (S n) | Some (Some j) => Ran false (match put p (File j) x with Some x' => x' | None => x end) (S n) | None => match put p (File c) x with Some x' => Ran true x' (S n) | None => Ran false x (S n) end end = Ran true x' n' -> put p (File c) x = Some x').
  { destruct (io n) as [[]|]; try discriminate. destruct (put p (File c) x); [|discriminate]. intros H. injection H as <- _. reflexivity. }
  unfold dir_at. destruct (get p x) as [[| | |es]|] eqn:E; try discriminate; intros H; split; try (apply X, H); intros (fs & F); congruence.
Qed.
Definition over (a b : option kind) : option kind := match a with Some k => Some k | None => b end.
(** nothing is below a file *)
Lemma seen_not_dir p x c r : ~ dir_at p x -> seen (p ++ c :: r) x = None.
Proof. intros H. unfold seen. rewrite get_app. destruct (get p x) as [[| | |es]|] eqn:E; try reflexivity. exfalso. apply H. exists es. exact E. Qed.
Lemma copy_each_only p es : forall x n q, (forall c, In c (akeys es) -> apart (p ++ [c]) q) -> match copy_each p es x n with Ran _ x' _ => get q x' = get q x | Endless => True end.
Proof.
  induction es as [|[c z] es IH]; intros x n q H; [reflexivity|]. cbn [copy_each]. unfold and_then.
  pose proof (copy_over_fills z (p ++ [c]) x n) as F. destruct (copy_over io (p ++ [c]) z x n) as [ok x1 n1|]; [|exact I]. cbn in F.
  assert (E : get q x1 = get q x) by (eapply fills_apart; [exact F|apply H; left; reflexivity]).
  destruct ok; [|exact E]. specialize (IH x1 n1 q (fun d Hd => H d (or_intror Hd))). destruct (copy_each p es x1 n1); [|exact I]. congruence.
Qed.
Lemma copy_each_dir p es x n x' n' : copy_each p es x n = Ran true x' n' -> dir_at p x -> dir_at p x'.
Proof.
  revert x n. induction es as [|[c z] es IH]; intros x n H D; cbn [copy_each] in H; [injection H as <- _; exact D|]. apply and_then_good in H. destruct H as (x1 & n1 & H1 & H2).
  eapply IH; [exact H2|]. pose proof (copy_over_fills z (p ++ [c]) x n) as F. rewrite H1 in F. cbn in F. eapply fills_above; [exact F|apply under_app| |exact D].
  intros E. apply (f_equal (@length _)) in E. rewrite app_length in E. cbn in E. lia.
Qed.
Lemma snoc_ne (p : path) (c : text) r : p ++ c :: r <> p.
Proof. intros E. apply (f_equal (@length _)) in E. rewrite app_length in E. cbn in E. lia. Qed.
Lemma copy_over_good y : forall p x n x' n', tidy y -> copy_over io p y x n = Ran true x' n' -> forall r, seen (p ++ r) x' = over (seen r y) (seen (p ++ r) x).
Proof.
  induction y as [c|t| |es IH] using node_rect2; intros p x n x' n' Ht H r.
  - apply write_file_good in H. destruct H as [H Hd]. unfold seen at 1. rewrite (get_put_under _ _ _ _ _ H). destruct r as [|d r]; [reflexivity|]. cbn. rewrite (seen_not_dir p x d r Hd). reflexivity.
  - discriminate.
  - discriminate.
  - rewrite copy_over_dir in H. apply and_then_good in H. destruct H as (x1 & n1 & H1 & H2). apply tidy_dir in Ht. destruct Ht as [Hd Ht].
    assert (X1 : dir_at p x1 /\ forall c r, seen (p ++ c :: r) x1 = seen (p ++ c :: r) x).
    { apply make_dir_good in H1. destruct H1 as [[D ->]|[E H1]]; [auto|]. split; [exists []; eapply get_put_same, H1|]. intros c s. unfold seen. rewrite (get_put_under _ _ _ _ _ H1), get_app, E. reflexivity. }
    destruct X1 as [D X1].
    assert (X2 : forall es x1 n1, NoDup (akeys es) -> Forall (fun e => tidy (snd e)) es -> Forall (fun e => forall p x n x' n', tidy (snd e) -> copy_over io p (snd e) x n = Ran true x' n' -> forall r, seen (p ++ r) x' = over (seen r (snd e)) (seen (p ++ r) x)) es ->
       copy_each p es x1 n1 = Ran true x' n' -> forall c r, seen (p ++ c :: r) x' = over (match aget c es with Some z => seen r z | None => None end) (seen (p ++ c :: r) x1)).
    { clear - io. intros es. induction es as [|[c z] es IHl]; intros x1 n1 Hd Ht IH H2 d s.
      - cbn in H2. injection H2 as <- _. reflexivity.
      - cbn [copy_each] in H2. apply and_then_good in H2. destruct H2 as (x2 & n2 & H3 & H4). cbn [akeys map fst] in Hd. apply NoDup_cons_iff in Hd. destruct Hd as [Hi Hd].
        inversion Ht as [|? ? Hz Ht']; subst. inversion IH as [|? ? IHz IH']; subst. cbn [snd] in *.
        rewrite (IHl x2 n2 Hd Ht' IH' H4 d s). cbn [aget]. destruct (text_eqb_spec d c) as [->|Hne].
        + replace (aget c es) with (@None node) by (symmetry; apply aget_none; exact Hi). cbn [over].
          replace (p ++ c :: s) with ((p ++ [c]) ++ s) by (rewrite <- app_assoc; reflexivity). apply (IHz _ _ _ _ _ Hz H3).
        + f_equal. pose proof (copy_over_fills z (p ++ [c]) x1 n1) as F. rewrite H3 in F. cbn in F. unfold seen. rewrite (fills_apart _ _ _ (p ++ d :: s) F); [reflexivity|].
          replace (p ++ d :: s) with ((p ++ [d]) ++ s) by (rewrite <- app_assoc; reflexivity). rewrite <- (app_nil_r (p ++ [c])). apply apart_sibling. congruence. }
    destruct r as [|c r].
    + rewrite app_nil_r. destruct (copy_each_dir _ _ _ _ _ _ H2 D) as (fs & E). unfold seen. rewrite E. reflexivity.
    + rewrite (X2 es x1 n1 Hd Ht IH H2 c r), X1. f_equal. unfold seen. cbn [get]. destruct (aget c es); reflexivity.
Qed.
End Io.
