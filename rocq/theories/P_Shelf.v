(** The properties of the repository on disk: C200 to C209. *)
From Verif Require Import Base Base_lemmas Text_lemmas Maps Version_model Range_model Files_model Files_spec Files_proofs Shelf_model Shelf_spec Shelf_proofs Shelf_remove.
From Coq Require Import Lia.
Open Scope string_scope. Open Scope list_scope.

(** ** C200: hiding a version *)
Theorem C200_hides_partial io ro name v allow s k z s' n : ignore_package io ro name (Some v) allow s k = (Done z, s') -> reads_as name n -> marker_free s n v -> z <> (-1)%Z ->
  hidden s' n v /\ ~ shown s' n v /\ (forall m w, (m, w) <> (n, v) -> (shown s' m w <-> shown s m w)) /\ (forall m w, ~ unlisted_name w -> forall p, look s' (m :: w :: p) = look s (m :: w :: p)).
Proof.
  intros H Hn Mf Nz. apply (ignore_spec io) with (n := n) in H as [Tc H]; [|exact Hn]. apply touches_marker in Tc as [A B].
  assert (Hh : hidden s' n v). { destruct H as [(-> & _)|[(_ & _ & _ & -> & L)|(_ & _ & _ & _ & L)]]; [congruence| |exact L]. unfold hidden. destruct (look s [n; ignore_file v]) as [x|] eqn:E; [|congruence]. destruct (Mf x E) as [c ->]. eauto. }
  split; [exact Hh|]. split; [intros (_ & _ & Q); exact (Q Hh)|]. split; [|exact B]. intros m w Ne. apply A, Ne.
Qed.
Theorem C200_untouched io ro name version allow s k r s' n : ignore_package io ro name (Some version) allow s k = (r, s') -> reads_as name n -> touches [[n; ignore_file version]] s s'.
Proof. intros H Hn. apply (ignore_spec io) with (n := n) in H; [apply H|exact Hn]. Qed.
(** what [iter_packages] gives is what is shown *)
Theorem C200_listing s n : tidy_shelf s -> exists vs, iter_packages s n = map parse_version vs /\ NoDup vs /\ forall v, In v vs <-> shown s n v.
Proof. exact (listing s n). Qed.
(** a directory with the name of the marker counts as hiding and hides nothing *)
Definition odd_shelf : shelf := Some [(T "maya", Dir [(T "2020", Dir [(T "package.py", File (T "x"))]); (T ".ignore2020", Dir [])])].
Lemma odd_shown : shown odd_shelf (T "maya") (T "2020").
Proof. split; [exists [(T "package.py", File (T "x"))]; reflexivity|]. split; [intros [r [Q|Q]]; discriminate|]. intros [c Q]. discriminate. Qed.
Theorem C200_refuted : ~ (forall io name v s k z s' n, ignore_package io false name (Some v) false s k = (Done z, s') -> reads_as name n -> (0 <= z)%Z -> ~ shown s' n v).
Proof. intros H. apply (H no_failure (T "maya") (T "2020") odd_shelf 0 0%Z odd_shelf (T "maya") eq_refl); [apply component_iff; reflexivity|lia|apply odd_shown]. Qed.
Print Assumptions C200_hides_partial.
Print Assumptions C200_untouched.
Print Assumptions C200_listing.
Print Assumptions C200_refuted.
Definition two_shelf : shelf := Some [(T "maya", Dir [(T "2020", Dir [(T "package.py", File (T "x"))]); (T "2021", Dir [(T "package.py", File (T "y"))])]); (T "nuke", Dir [(T "13", Dir [])])].
Definition two_hidden : shelf := Some [(T "maya", Dir [(T "2020", Dir [(T "package.py", File (T "x"))]); (T "2021", Dir [(T "package.py", File (T "y"))]); (T ".ignore2020", File [])]); (T "nuke", Dir [(T "13", Dir [])])].
Example C200_example : ignore_package no_failure false (T "maya") (Some (T "2020")) false two_shelf 0 = (Done 1%Z, two_hidden) /\ iter_packages two_shelf (T "maya") = map parse_version [T "2020"; T "2021"] /\ iter_packages two_hidden (T "maya") = map parse_version [T "2021"].
Proof. vm_compute. auto. Qed.

(** ** C201: what the numbers mean, and the way back *)
Theorem C201_ignore_codes io name v allow s k n : (forall j, io j = false) -> reads_as name n -> plain_name v -> family_free s n -> marker_free s n v ->
  exists z s', ignore_package io false name (Some v) allow s k = (Done z, s') /\
    (z = -1 <-> allow = false /\ ~ has_version s n v)%Z /\ (z = 0 <-> (allow = true \/ has_version s n v) /\ hidden s n v)%Z /\ (z = 1 <-> (allow = true \/ has_version s n v) /\ ~ hidden s n v)%Z.
Proof.
  intros Io Hn Pv Ff Mf. destruct (ignore_package io false name (Some v) allow s k) as [r s'] eqn:H. pose proof (ignore_spec io _ _ _ _ _ _ _ _ n H Hn) as [_ Sp].
  assert (Hh : hidden s n v <-> look s [n; ignore_file v] <> None). { unfold hidden. destruct (look s [n; ignore_file v]) as [x|] eqn:E; split; try congruence; [|intros [? ?]; discriminate]. intros _. destruct (Mf x E) as [c ->]. eauto. }
  assert (Self : reads_as v v) by (apply reads_self, Pv). destruct r as [z|].
  - exists z, s'. split; [reflexivity|]. rewrite Hh. destruct Sp as [(-> & _ & -> & C)|[(-> & _ & Ok & _ & L)|(-> & _ & Ok & L & _)]].
    + specialize (C v Self). repeat split; intros; try discriminate; try tauto; destruct H0 as [[|] _]; congruence.
    + repeat split; intros; try discriminate; try tauto; destruct H0; destruct Ok; try congruence; contradiction.
    + rewrite L. repeat split; intros; try discriminate; try tauto; destruct H0; destruct Ok; try congruence; contradiction.
  - exfalso. apply component_iff in Hn. unfold ignore_package, ignore_at, make_family in H. rewrite (component_plain v Pv), Hn, !Io, (plain_slash v Pv) in H. destruct (negb allow && negb (version_dir s n v)); [discriminate|].
    assert (Fo : forall x, aget n (rows s) = Some x -> exists es, x = Dir es). { intros x Hx. destruct s as [es|]; [|discriminate]. cbn [rows] in Hx. apply Ff. cbn [look get]. rewrite Hx. reflexivity. }
    destruct (aget n (rows s)) as [x|]; [|discriminate]. destruct (Fo x eq_refl) as [es ->]. destruct (aget (marker v) es); discriminate.
Qed.
Theorem C201_unignore_codes io name v s k n : (forall j, io j = false) -> reads_as name n -> plain_name v -> marker_free s n v ->
  exists z s', unignore_package io false name (Some v) s k = (Done z, s') /\ ~ hidden s' n v /\ touches [[n; ignore_file v]] s s' /\
    (z = -1 <-> ~ has_version s n v)%Z /\ (z = 0 <-> has_version s n v /\ ~ hidden s n v)%Z /\ (z = 1 <-> has_version s n v /\ hidden s n v)%Z.
Proof.
  intros Io Hn Pv Mf. destruct (unignore_package io false name (Some v) s k) as [r s'] eqn:H. pose proof (unignore_spec io false name v s k r s' n H Hn) as Sp.
  assert (Hh : hidden s n v <-> look s [n; ignore_file v] <> None). { unfold hidden. destruct (look s [n; ignore_file v]) as [x|] eqn:E; split; try congruence; [|intros [? ?]; discriminate]. intros _. destruct (Mf x E) as [c ->]. eauto. }
  destruct r as [z|].
  - destruct Sp as (w & Hw & A & B & C & D & E & _). apply component_iff in Hw. rewrite (component_plain v Pv) in Hw. injection Hw as <-. exists z, s'. split; [reflexivity|]. split; [exact B|]. split; [exact A|]. split; [exact C|]. split; [|rewrite Hh; exact E].
    rewrite D, Hh. destruct (look s [n; ignore_file v]); split; intros [P Q]; split; auto; try congruence. exfalso. apply Q. discriminate.
  - exfalso. apply component_iff in Hn. unfold unignore_package, drop_marker in H. rewrite (component_plain v Pv), Hn in H. destruct (family s n) as [fs|] eqn:F; [|discriminate].
    unfold marker_free in Mf. rewrite (look_in s n fs _ F) in Mf. cbn [get] in Mf. change (ignore_file v) with (marker v) in Mf. destruct (aget (marker v) fs) as [x|]; [|discriminate]. destruct (Mf x eq_refl) as [c ->]. rewrite (plain_slash v Pv), Io in H. discriminate.
Qed.
(** hiding and showing again leaves the disk as it was *)
Theorem C201_back io io' ro name v s k k' s' n : ignore_package io ro name (Some v) false s k = (Done 1%Z, s') -> reads_as name n -> (forall j, io' j = false) -> unignore_package io' false name (Some v) s' k' = (Done 1%Z, s).
Proof.
  intros H Hn Io. pose proof (ignore_spec io _ _ _ _ _ _ _ _ n H Hn) as [_ Sp]. destruct Sp as [(Q & _)|[(Q & _)|(_ & Pv & Ok & L & _)]]; try discriminate. destruct Ok as [Q|Hv]; [discriminate|].
  apply component_iff in Hn. destruct ro; [discriminate|]. unfold ignore_package in H. apply version_dir_iff in Hv. unfold version_dir in Hv. destruct (family s n) as [fs|] eqn:F; [|discriminate].
  rewrite (ignore_form io name v s k n fs Hn Pv F Hv) in H. destruct (io k); [discriminate|]. rewrite (look_in s n fs _ F) in L. cbn [get] in L. change (ignore_file v) with (marker v) in L. destruct (aget (marker v) fs) as [x|] eqn:G; [discriminate|].
  destruct (io (S k)); [discriminate|]. injection H as <-. unfold unignore_package, drop_marker. rewrite (component_plain v Pv), Hn, family_with, marked_get, G, (plain_slash v Pv), Io. cbn [orb]. unfold marked. rewrite G, adel_put by exact G. rewrite with_twice, (with_back s n fs F).
  unfold version_dir. rewrite F, Hv. reflexivity.
Qed.
Print Assumptions C201_ignore_codes.
Print Assumptions C201_unignore_codes.
Print Assumptions C201_back.
Example C201_example : map (fun v => fst (ignore_package no_failure false (T "maya") (Some (T v)) false two_hidden 0)) ["2020"; "2021"; "2022"] = [Done 0; Done 1; Done (-1)]%Z
  /\ map (fun v => fst (unignore_package no_failure false (T "maya") (Some (T v)) two_hidden 0)) ["2020"; "2021"; "2022"] = [Done 1; Done 0; Done (-1)]%Z
  /\ unignore_package no_failure false (T "maya") (Some (T "2020")) two_hidden 0 = (Done 1%Z, two_shelf).
Proof. vm_compute. auto. Qed.

(** ** C202: removal never shows half a package *)
Theorem C202_whole_partial io junk ro name version s k r s' n : remove_package io junk ro name (Some version) s k = (r, s') -> reads_as name n -> (forall v, marker_free s n v) -> whole s s'.
Proof.
  intros H Hn Mf m w Sh. destruct (remove_sem io junk ro name version s k r s' n H Hn) as [Tc Sm].
  assert (Sm' : s' = s \/ has_version s n version /\ ((look s' [n; version] = None) \/ hidden s' n version)).
  { destruct r as [[|]|].
    - right. tauto.
    - left. apply Sm.
    - destruct Sm as [->|(_ & A & B)]; [left; reflexivity|]. right. split; [exact A|]. right. unfold hidden. rewrite B. destruct (look s [n; ignore_file version]) as [x|] eqn:E; [|eauto]. destruct (Mf version x E) as [c ->]. eauto. }
  destruct Sm' as [->|[[es Hv] D]]; [auto|]. destruct Sh as ([gs Hg] & Ul & Nh). assert (Ne : ~ (m = n /\ w = version)). { intros [-> ->]. destruct D as [D|D]; [congruence|exact (Nh D)]. }
  assert (L : forall p, look s' (m :: w :: p) = look s (m :: w :: p)).
  { intros p. apply Tc. intros q [<-|[<-|[]]]; apply apart_two; destruct (text_eqb_spec m n) as [->|?]; auto; right; intros ->; first [solve [apply Ne; auto]|apply Ul, marker_unlisted]. }
  split; [|exact L]. split; [exists gs; rewrite <- L; exact Hg|]. split; [exact Ul|]. intros [c Hc]. destruct (text_eqb_spec m n) as [->|Nm].
  - destruct (text_eqb_spec (ignore_file w) version) as [<-|Nv]; [congruence|]. apply Nh. exists c. rewrite Tc; [exact Hc|]. intros q [<-|[<-|[]]]; apply apart_two; right; [exact Nv|]. intros Q. apply marker_inj in Q. apply Ne. auto.
  - apply Nh. exists c. rewrite Tc; [exact Hc|]. intros q [<-|[<-|[]]]; apply apart_two; auto.
Qed.
Theorem C202_removes io junk ro name version s k r s' n : remove_package io junk ro name (Some version) s k = (r, s') -> reads_as name n ->
  touches [[n; version]; [n; ignore_file version]] s s' /\
  match r with
  | Done true => has_version s n version /\ look s' [n; version] = None /\ look s' [n; ignore_file version] = None
  | Done false => s' = s /\ forall v, reads_as version v -> ~ has_version s n v
  | Failed => True
  end.
Proof. intros H Hn. destruct (remove_sem io junk ro name version s k r s' n H Hn) as [A B]. split; [exact A|]. destruct r as [[|]|]; tauto. Qed.
Theorem C202_runs io junk name version s k n : (forall j, io j = false) -> reads_as name n -> plain_name version -> marker_free s n version ->
  exists b, fst (remove_package io junk false name (Some version) s k) = Done b /\ (b = true <-> has_version s n version).
Proof. intros Io Hn Pv Mf. exists (version_dir s n version). split; [apply remove_runs; assumption|apply version_dir_iff]. Qed.
Theorem C202_refuted : ~ (forall io junk name version s k r s' n, remove_package io junk false name (Some version) s k = (r, s') -> reads_as name n -> whole s s').
Proof.
  intros H. specialize (H (fun j => Nat.eqb j 2) (fun _ => []) (T "maya") (T "2020") odd_shelf 0 _ _ (T "maya") eq_refl). assert (R : reads_as (T "maya") (T "maya")) by (apply component_iff; reflexivity).
  destruct (H R (T "maya") (T "2020")) as [_ Q].
  - split; [exists []; reflexivity|]. split; [intros [r [Q|Q]]; discriminate|]. intros [c Q]. discriminate.
  - specialize (Q [T "package.py"]). vm_compute in Q. discriminate.
Qed.
Print Assumptions C202_whole_partial.
Print Assumptions C202_removes.
Print Assumptions C202_runs.
Print Assumptions C202_refuted.
(** the third call fails halfway: the version is hidden; another try ends it *)
Example C202_example : let s' := snd (remove_package (fun j => Nat.eqb j 2) (fun _ => []) false (T "maya") (Some (T "2020")) two_shelf 0) in
  iter_packages s' (T "maya") = [parse_version (T "2021")] /\ version_dir s' (T "maya") (T "2020") = true /\ remove_package no_failure (fun _ => []) false (T "maya") (Some (T "2020")) s' 0 = (Done true, Some [(T "maya", Dir [(T "2021", Dir [(T "package.py", File (T "y"))])]); (T "nuke", Dir [(T "13", Dir [])])]).
Proof. vm_compute. auto. Qed.

(** ** C203: what a failure leaves *)
(** a marker without its version is not taken away by removing again, nor by the cleaning *)
Theorem C203_stays io junk name n v s k : reads_as name n -> plain_name v -> ~ has_version s n v -> remove_package io junk false name (Some v) s k = (Done false, s).
Proof. intros Hn Pv Nh. apply component_iff in Hn. apply (remove_none io junk name v s k n v Hn (component_plain v Pv)). apply version_dir_false, Nh. Qed.
(** the fourth call fails; the version is released again and does not show *)
Definition left_shelf : shelf := snd (remove_package (fun j => Nat.eqb j 3) (fun _ => []) false (T "maya") (Some (T "2020")) two_shelf 0).
Definition again_shelf : shelf := match left_shelf with Some es => match put [T "maya"; T "2020"] (Dir [(T "package.py", File (T "new"))]) (Dir es) with Some (Dir es') => Some es' | _ => None end | None => None end.
Theorem C203_refuted : ~ (forall io junk name v s k r s1 r2 s2 s3 n, remove_package io junk false name (Some v) s k = (r, s1) -> reads_as name n -> remove_package no_failure junk false name (Some v) s1 0 = (Done r2, s2) ->
  touches [[n; v]] s2 s3 -> has_version s3 n v -> ~ unlisted_name v -> marker_free s n v -> shown s3 n v).
Proof.
  intros H. assert (S : shown again_shelf (T "maya") (T "2020")).
  { apply (H (fun j => Nat.eqb j 3) (fun _ => []) (T "maya") (T "2020") two_shelf 0 Failed left_shelf false left_shelf again_shelf (T "maya")).
    - reflexivity.
    - apply component_iff. reflexivity.
    - reflexivity.
    - intros q Hq. specialize (Hq _ (or_introl eq_refl)). assert (P : exists es es', left_shelf = Some es /\ put [T "maya"; T "2020"] (Dir [(T "package.py", File (T "new"))]) (Dir es) = Some (Dir es') /\ again_shelf = Some es') by (do 2 eexists; split; [vm_compute; reflexivity|split; [vm_compute; reflexivity|vm_compute; reflexivity]]).
      destruct P as (es & es' & -> & P & ->). cbn [look]. apply (get_put_apart _ _ q _ _ P Hq).
    - exists [(T "package.py", File (T "new"))]. reflexivity.
    - intros [r [Q|Q]]; discriminate.
    - intros x Q. discriminate. }
  destruct S as (_ & _ & S). apply S. exists []. reflexivity.
Qed.
(** a removal that succeeded leaves nothing behind *)
Theorem C203_again_partial io junk ro name v s k s1 s2 n : remove_package io junk ro name (Some v) s k = (Done true, s1) -> reads_as name n -> touches [[n; v]] s1 s2 -> has_version s2 n v -> ~ unlisted_name v -> shown s2 n v.
Proof.
  intros H Hn Tc Hv Ul. destruct (remove_sem io junk ro name v s k _ s1 n H Hn) as [_ (_ & _ & _ & L)]. split; [exact Hv|]. split; [exact Ul|]. intros [c Hc]. rewrite Tc in Hc; [congruence|]. intros q [<-|[]]. apply apart_two. right. apply marker_not.
Qed.
Print Assumptions C203_stays.
Print Assumptions C203_refuted.
Print Assumptions C203_again_partial.
Example C203_example : look left_shelf [T "maya"; T ".ignore2020"] = Some (File []) /\ look left_shelf [T "maya"; T "2020"] = None /\ iter_packages again_shelf (T "maya") = [parse_version (T "2021")]
  /\ remove_ignored_since no_failure (fun _ => []) false (fun _ _ => Some 864000%N) 1 false left_shelf 0 = (Done 0%Z, left_shelf).
Proof. vm_compute. auto. Qed.

(** ** C204: cleaning hidden versions *)
Theorem C204_untouched io junk ro age days dry s k r s' : tidy_shelf s -> proper s -> remove_ignored_since io junk ro age days dry s k = (r, s') ->
  forall q, (forall n v, long_hidden age (Z.to_N days * 86400) s n v -> apart [n; v] q /\ apart [n; ignore_file v] q) -> look s' q = look s q.
Proof.
  intros Ht [Pn _] H q Hq. unfold remove_ignored_since in H. destruct (ro || _); [injection H as <- <-; reflexivity|]. destruct s as [es|]; [|injection H as <- <-; reflexivity].
  destruct (old_ignored age (Z.to_N days * 86400) es) as [cs|] eqn:E; [|injection H as <- <-; reflexivity]. destruct dry; [injection H as <- <-; reflexivity|].
  destruct (old_ignored_spec age _ es cs Ht E) as [_ In_cs]. apply (each_touches io junk cs) in H.
  - apply H. intros p Hp. apply in_flat_map in Hp as ([n v] & Hc & Hp). apply In_cs in Hc. destruct (Hq n v Hc) as [A B]. destruct Hp as [<-|[<-|[]]]; assumption.
  - apply Forall_forall. intros [n v] Hc. apply In_cs in Hc as (_ & [c Hc] & _). cbn [fst]. apply Pn. cbn [look get] in *. destruct (aget n es); [discriminate|discriminate].
Qed.
Theorem C204_dry io junk ro age days s k r s' : remove_ignored_since io junk ro age days true s k = (r, s') -> s' = s.
Proof. unfold remove_ignored_since. destruct (ro || _); [congruence|]. destruct s as [es|]; [|congruence]. destruct (old_ignored _ _ es); congruence. Qed.
Theorem C204_cleans_partial io junk age days s k : tidy_shelf s -> proper s -> (0 <= days)%Z -> (forall j, io j = false) -> (forall n v, age n v <> None) ->
  (forall n v, long_hidden age (Z.to_N days * 86400) s n v -> v <> T "." /\ v <> T "..") ->
  exists cs gone s', NoDup cs /\ (forall n v, In (n, v) cs <-> long_hidden age (Z.to_N days * 86400) s n v) /\
    NoDup gone /\ (forall n v, In (n, v) gone <-> long_hidden age (Z.to_N days * 86400) s n v /\ has_version s n v) /\
    remove_ignored_since io junk false age days true s k = (Done (Z.of_nat (length cs)), s) /\
    remove_ignored_since io junk false age days false s k = (Done (Z.of_nat (length gone)), s') /\
    (forall n v, In (n, v) gone -> look s' [n; v] = None /\ look s' [n; ignore_file v] = None) /\
    (forall q, (forall n v, In (n, v) gone -> apart [n; v] q /\ apart [n; ignore_file v] q) -> look s' q = look s q).
Proof.
  intros Ht [Pn Pv] Hd Io Ha Hdot. unfold remove_ignored_since. assert (Z0 : (days <? 0)%Z = false) by (apply Z.ltb_ge; exact Hd). rewrite Z0. cbn [orb]. destruct s as [es|].
  - destruct (old_ignored_runs age (Z.to_N days * 86400) es Ha) as [cs E]. rewrite E. destruct (old_ignored_spec age _ es cs Ht E) as [Nd In_cs].
    destruct (each_runs io junk Io cs 0%Z (Some es) k Nd) as (s' & R & G & Fr).
    { intros n v Hc. apply In_cs in Hc. destruct (Hdot n v Hc) as [D1 D2]. destruct Hc as (Nv & Hh & _). assert (Hh' := Hh). destruct Hh' as [c Hh']. split; [|split; [|exact Hh]].
      - apply Pn. cbn [look get] in *. destruct (aget n es); discriminate.
      - assert (Pm : plain_name (ignore_file v)) by (apply (Pv n); rewrite Hh'; discriminate). destruct Pm as (_ & _ & _ & Pm). repeat split; auto. intros Q. apply Pm. apply in_app_iff. right. exact Q. }
    exists cs, (filter (fun c => version_dir (Some es) (fst c) (snd c)) cs), s'. assert (Ig : forall n v, In (n, v) (filter (fun c => version_dir (Some es) (fst c) (snd c)) cs) <-> In (n, v) cs /\ has_version (Some es) n v) by (intros n v; rewrite filter_In; cbn [fst snd]; rewrite version_dir_iff; reflexivity).
    split; [exact Nd|]. split; [exact In_cs|]. split; [apply NoDup_filter, Nd|]. split; [intros n v; rewrite Ig, In_cs; reflexivity|]. split; [reflexivity|]. split; [exact R|]. split.
    + intros n v Q. apply Ig in Q as [Q1 Q2]. apply G; assumption.
    + intros q Hq. apply Fr. intros n v Q1 Q2. apply Hq, Ig. auto.
  - assert (No : forall n v, ~ long_hidden age (Z.to_N days * 86400) None n v) by (intros n v (_ & [c Q] & _); discriminate). exists [], [], None.
    split; [constructor|]. split; [intros n v; split; [intros []|intros Q; destruct (No n v Q)]|]. split; [constructor|]. split; [intros n v; split; [intros []|intros [Q _]; destruct (No n v Q)]|].
    split; [reflexivity|]. split; [reflexivity|]. split; [intros n v []|reflexivity].
Qed.
(** the trial run counts a marker without a version; the run does not *)
Theorem C204_counts_refuted : ~ (forall age days s z z' s1 s2, remove_ignored_since no_failure (fun _ => []) false age days true s 0 = (Done z, s1) -> remove_ignored_since no_failure (fun _ => []) false age days false s 0 = (Done z', s2) -> z = z').
Proof. intros H. specialize (H (fun _ _ => Some 864000%N) 1%Z left_shelf _ _ _ _ eq_refl eq_refl). discriminate. Qed.
(** one file called .ignore. stops the cleaning of everything *)
Definition dotted_shelf : shelf := Some [(T "a", Dir [(T ".ignore.", File [])]); (T "maya", Dir [(T "2020", Dir []); (T ".ignore2020", File [])])].
Theorem C204_stops_refuted : ~ (forall age days s, (forall n v, age n v <> None) -> (0 <= days)%Z -> exists z s', remove_ignored_since no_failure (fun _ => []) false age days false s 0 = (Done z, s')).
Proof. intros H. destruct (H (fun _ _ => Some 864000%N) 1%Z dotted_shelf) as (z & s' & Q); [discriminate|lia|]. vm_compute in Q. discriminate. Qed.
Print Assumptions C204_untouched.
Print Assumptions C204_dry.
Print Assumptions C204_cleans_partial.
Print Assumptions C204_counts_refuted.
Print Assumptions C204_stops_refuted.
(** two hidden versions, one for two days and one for an hour *)
Definition aged_shelf : shelf := Some [(T "maya", Dir [(T "2020", Dir []); (T "2021", Dir []); (T "2022", Dir []); (T ".ignore2020", File []); (T ".ignore2021", File [])])].
Definition ages (n v : text) : option N := Some (if text_eqb v (T "2020") then 172800 else 3600)%N.
Example C204_example : remove_ignored_since no_failure (fun _ => []) false ages 1 false aged_shelf 0 = (Done 1%Z, Some [(T "maya", Dir [(T "2021", Dir []); (T "2022", Dir []); (T ".ignore2021", File [])])])
  /\ remove_ignored_since no_failure (fun _ => []) false ages 0 true aged_shelf 0 = (Done 2%Z, aged_shelf) /\ remove_ignored_since no_failure (fun _ => []) false ages 3 false aged_shelf 0 = (Done 0%Z, aged_shelf).
Proof. vm_compute. auto. Qed.

(** ** C205: removing a family *)
Theorem C205_family io junk ro name force s k r s' n : remove_family io junk ro name force s k = (r, s') -> reads_as name n ->
  touches [[n]] s s' /\
  match r with
  | Done true => (exists es, look s [n] = Some (Dir es)) /\ look s' [n] = None /\ (force = false -> forall v, has_version s n v -> exists w, v = "."%char :: w)
  | Done false => s' = s /\ forall es, look s [n] <> Some (Dir es)
  | Failed => s' = s \/ (exists es, look s' [n] = Some (Dir es)) /\ (force = false -> forall v, has_version s n v -> exists w, v = "."%char :: w)
  end.
Proof. exact (remove_family_sem io junk ro name force s k r s' n). Qed.
(** without force no version that shows is lost, whatever fails *)
Theorem C205_shown_kept_partial io junk ro name s k r s' n v : remove_family io junk ro name false s k = (r, s') -> reads_as name n -> shown s n v -> s' = s.
Proof.
  intros H Hn (Hv & Ul & _). destruct (remove_family_sem io junk ro name false s k r s' n H Hn) as [_ Sm]. assert (X : ~ (forall v, has_version s n v -> exists w, v = "."%char :: w)). { intros Q. destruct (Q v Hv) as [w ->]. apply Ul. exists w. auto. }
  destruct r as [[|]|]; [destruct X; tauto|apply Sm|]. destruct Sm as [Q|Q]; [exact Q|]. destruct X. tauto.
Qed.
(** the package of a family without versions is lost *)
Definition bare_shelf : shelf := Some [(T "tools", Dir [(T "package.py", File (T "name"))])].
Theorem C205_refuted : ~ (forall io junk name s k r s' n p c, remove_family io junk false name false s k = (r, s') -> reads_as name n -> look s (n :: p) = Some (File c) -> look s' (n :: p) = Some (File c)).
Proof. intros H. specialize (H no_failure (fun _ => []) (T "tools") bare_shelf 0 _ _ (T "tools") [T "package.py"] (T "name") eq_refl). assert (R : reads_as (T "tools") (T "tools")) by (apply component_iff; reflexivity). specialize (H R eq_refl). discriminate. Qed.
Print Assumptions C205_family.
Print Assumptions C205_shown_kept_partial.
Print Assumptions C205_refuted.
Example C205_example : remove_family no_failure (fun _ => []) false (T "maya") false two_shelf 0 = (Failed, two_shelf) /\ remove_family no_failure (fun _ => []) false (T "maya") true two_shelf 0 = (Done true, Some [(T "nuke", Dir [(T "13", Dir [])])])
  /\ remove_family no_failure (fun _ => []) false (T "tools") false bare_shelf 0 = (Done true, Some []).
Proof. vm_compute. auto. Qed.

(** ** C206: a repository that is read only *)
Theorem C206_read_only io junk name version allow force age days dry s k :
  ignore_package io true name version allow s k = (Failed, s) /\ unignore_package io true name version s k = (Failed, s) /\ remove_package io junk true name version s k = (Failed, s)
  /\ remove_family io junk true name force s k = (Failed, s) /\ remove_ignored_since io junk true age days dry s k = (Failed, s).
Proof. repeat split; reflexivity. Qed.
(** no version given: nothing happens *)
Theorem C206_no_version io junk ro name allow s k : ignore_package io ro name None allow s k = (Failed, s) /\ unignore_package io ro name None s k = (Failed, s) /\ remove_package io junk ro name None s k = (Failed, s).
Proof. destruct ro; repeat split; reflexivity. Qed.
Print Assumptions C206_read_only.
Print Assumptions C206_no_version.
Example C206_example : remove_package no_failure (fun _ => []) true (T "maya") (Some (T "2020")) two_shelf 0 = (Failed, two_shelf) /\ fst (remove_package no_failure (fun _ => []) false (T "maya") (Some (T "2020")) two_shelf 0) = Done true.
Proof. vm_compute. auto. Qed.

(** ** C207: names cannot lead out of the family *)
Lemma touches_up n c s s' : touches [[n; c]] s s' -> touches [[n]] s s'.
Proof. intros H q Hq. apply H. intros p [<-|[]]. apply apart_sym. specialize (Hq _ (or_introl eq_refl)). apply apart_sym. apply (apart_under [n] q [n; c] Hq). exists [c]. reflexivity. Qed.
Lemma touches_up2 n c d s s' : touches [[n; c]; [n; d]] s s' -> touches [[n]] s s'.
Proof. intros H q Hq. apply H. specialize (Hq _ (or_introl eq_refl)). intros p [<-|[<-|[]]]; (apply (apart_under [n] q _ Hq); eexists [_]; reflexivity). Qed.
Theorem C207_confined io junk ro name version allow force s k n : reads_as name n ->
  touches [[n]] s (snd (ignore_package io ro name version allow s k)) /\ touches [[n]] s (snd (unignore_package io ro name version s k)) /\ touches [[n]] s (snd (remove_package io junk ro name version s k)) /\ touches [[n]] s (snd (remove_family io junk ro name force s k)).
Proof.
  intros Hn. destruct version as [v|].
  - repeat split.
    + destruct (ignore_package io ro name (Some v) allow s k) as [r s'] eqn:H. apply (ignore_spec io) with (n := n) in H as [H _]; [|exact Hn]. apply (touches_up _ _ _ _ H).
    + destruct (unignore_package io ro name (Some v) s k) as [r s'] eqn:H. apply (unignore_spec io) with (n := n) in H; [|exact Hn]. destruct r; [|subst; apply touches_refl]. destruct H as (w & _ & H & _). apply (touches_up _ _ _ _ H).
    + destruct (remove_package io junk ro name (Some v) s k) as [r s'] eqn:H. apply (remove_sem io junk) with (n := n) in H as [H _]; [|exact Hn]. apply (touches_up2 _ _ _ _ _ H).
    + destruct (remove_family io junk ro name force s k) as [r s'] eqn:H. apply (remove_family_sem io junk) with (n := n) in H as [H _]; [|exact Hn]. exact H.
  - destruct (C206_no_version io junk ro name allow s k) as (-> & -> & ->). repeat split; try apply touches_refl. destruct (remove_family io junk ro name force s k) as [r s'] eqn:H. apply (remove_family_sem io junk) with (n := n) in H as [H _]; [|exact Hn]. exact H.
Qed.
Theorem C207_refused io junk ro name version allow force s k : (forall n, ~ reads_as name n) ->
  ignore_package io ro name version allow s k = (Failed, s) /\ unignore_package io ro name version s k = (Failed, s) /\ remove_package io junk ro name version s k = (Failed, s) /\ remove_family io junk ro name force s k = (Failed, s).
Proof.
  intros H. assert (E : component name = None). { destruct (component name) as [n|] eqn:E; [|reflexivity]. apply component_iff in E. destruct (H n E). }
  unfold ignore_package, unignore_package, remove_package, remove_family, ignore_at. rewrite E. destruct ro; [auto|]. destruct version as [v|]; [|auto]. destruct (component v); auto.
Qed.
Theorem C207_version_refused io junk ro name version allow s k : (forall v, ~ reads_as version v) ->
  ignore_package io ro name (Some version) allow s k = (Failed, s) /\ unignore_package io ro name (Some version) s k = (Failed, s) /\ remove_package io junk ro name (Some version) s k = (Failed, s).
Proof.
  intros H. assert (E : component version = None). { destruct (component version) as [n|] eqn:E; [|reflexivity]. apply component_iff in E. destruct (H n E). }
  unfold ignore_package, unignore_package, remove_package, ignore_at. rewrite E. destruct ro; auto.
Qed.
(** asking for a family does not look at its name: the way up is a family *)
Definition two_root : node := Dir [(T "srv", Dir [(T "packages", Dir [(T "maya", Dir [])]); (T "home", Dir [])])].
Theorem C207_family_refuted : ~ (forall root location name, has_family root location name = true -> exists n, reads_as name n).
Proof. intros H. destruct (H two_root [T "srv"; T "packages"] (T "../home") eq_refl) as [n Hn]. apply component_iff in Hn. discriminate. Qed.
Lemma walk_plain ps : Forall plain_name ps -> forall up x, walk up x ps = get ps x.
Proof.
  induction 1 as [|p ps Hp _ IH]; intros up x; cbn [walk get]; [reflexivity|]. destruct Hp as (N1 & N2 & N3 & _). assert (K : kept_part p = true). { unfold kept_part. replace (text_eqb p (T ".")) with false by (symmetry; apply text_eqb_neq; exact N2). destruct p; [congruence|reflexivity]. }
  rewrite K. cbn [negb]. replace (text_eqb p (T "..")) with false by (symmetry; apply text_eqb_neq; exact N3). destruct x; try reflexivity. destruct (aget p es); [apply IH|reflexivity].
Qed.
Theorem C207_family_partial root location n : Forall plain_name location -> plain_name n -> (has_family root location n = true <-> exists es, get (location ++ [n]) root = Some (Dir es)).
Proof.
  intros Hl Hn. unfold has_family. assert (N4 := Hn). destruct N4 as (N1 & _ & _ & N4). rewrite split_on_none by exact N4. replace (starts_with (T "/") n) with false.
  2:{ symmetry. destruct n as [|c n]; [congruence|]. cbn [starts_with T list_ascii_of_string]. rewrite andb_true_r. apply Ascii.eqb_neq. intros E. apply N4. left. symmetry. exact E. }
  rewrite walk_plain by (apply Forall_app; auto). match goal with |- match ?g with _ => _ end = true <-> _ => change g with (get (location ++ [n]) root) end. destruct (get (location ++ [n]) root) as [[c|t| |es]|]; split; try discriminate; try (intros [? Q]; discriminate); try reflexivity. intros _. exists es. reflexivity.
Qed.
(** the way up ends at the root *)
Theorem C207_family_up_refuted : forall k es location, has_family (Dir es) location (concat (repeat (T "/..") (S k))) = true.
Proof.
  intros k es location. unfold has_family. change (starts_with (T "/") (concat (repeat (T "/..") (S k)))) with true. cbn [app].
  assert (E : forall n, split_on "/" (concat (repeat (T "/..") n)) = [] :: repeat (T "..") n).
  { induction n as [|n IH]; [reflexivity|]. cbn [repeat concat]. change (T "/.." ++ concat (repeat (T "/..") n)) with ("/"%char :: "."%char :: "."%char :: concat (repeat (T "/..") n)). cbn [split_on Ascii.eqb]. rewrite IH. reflexivity. }
  rewrite E. change (walk [] (Dir es) ([] :: repeat (T "..") (S k))) with (walk [] (Dir es) (repeat (T "..") (S k))).
  assert (Wk : forall n, walk [] (Dir es) (repeat (T "..") n) = Some (Dir es)) by (induction n as [|n IH]; [reflexivity|exact IH]). rewrite Wk. reflexivity.
Qed.
Print Assumptions C207_family_up_refuted.
Print Assumptions C207_confined.
Print Assumptions C207_refused.
Print Assumptions C207_version_refused.
Print Assumptions C207_family_refuted.
Print Assumptions C207_family_partial.
Example C207_example : map component [T "maya"; T "maya/"; T "maya/./"; T ".."; T "a/b"; T "/maya"; T ""; T "./maya"; T "...";T ".hid"] = [Some (T "maya"); Some (T "maya"); Some (T "maya"); None; None; None; None; None; Some (T "..."); Some (T ".hid")]
  /\ map (fun n => has_family two_root [T "srv"; T "packages"] (T n)) ["maya"; "nuke"; "../home"; ""; ".."; "/srv"] = [true; false; true; true; true; true].
Proof. vm_compute. auto. Qed.

(** ** C208: looking for one package *)
Theorem C208_version s n t : tidy_shelf s ->
  match get_package s n (Some t) with
  | Some p => exists v x, shown s n v /\ parse_version v = Some x /\ v_str x = t /\ p = Some x
  | None => forall v x, shown s n v -> parse_version v = Some x -> v_str x <> t
  end.
Proof.
  intros Ht. destruct (listing s n Ht) as (vs & E & _ & I). unfold get_package. rewrite E. destruct (find _ (map parse_version vs)) as [p|] eqn:F.
  - apply find_some in F as [A B]. apply in_map_iff in A as (v & Hv & Iv). destruct p as [x|]; [|discriminate]. apply text_eqb_eq in B. exists v, x. repeat split; auto; apply I in Iv; apply Iv.
  - intros v x Sv Pv Q. apply I in Sv. assert (A := find_none _ _ F (parse_version v) (in_map parse_version vs v Sv)). cbn beta in A. rewrite Pv, Q, text_eqb_refl in A. discriminate.
Qed.
(** a package is found without a version exactly if one is shown *)
Theorem C208_any_partial s n : tidy_shelf s -> match get_package s n None with Some p => exists v, shown s n v /\ p = parse_version v | None => forall v, ~ shown s n v end.
Proof.
  intros Ht. destruct (listing s n Ht) as (vs & E & _ & I). unfold get_package. rewrite E. destruct vs as [|v vs]; cbn [map].
  - intros v Hv. apply I in Hv. destruct Hv.
  - exists v. split; [apply I; left; reflexivity|reflexivity].
Qed.
(** and it need not be the latest *)
Theorem C208_latest_refuted : ~ (forall s n x, tidy_shelf s -> get_package s n None = Some (Some x) -> forall v y, shown s n v -> parse_version v = Some y -> vcmp y x <> Gt).
Proof.
  intros H. assert (Ht : tidy_shelf two_shelf). { repeat constructor; cbn; try tauto; intuition discriminate. }
  assert (P : exists x y, parse_version (T "2020") = Some x /\ parse_version (T "2021") = Some y /\ vcmp y x = Gt) by (do 2 eexists; split; [vm_compute; reflexivity|split; [vm_compute; reflexivity|vm_compute; reflexivity]]).
  destruct P as (x & y & Px & Py & C). apply (H two_shelf (T "maya") x Ht) with (v := T "2021") (y := y); try assumption.
  - unfold get_package. replace (iter_packages two_shelf (T "maya")) with [parse_version (T "2020"); parse_version (T "2021")] by (vm_compute; reflexivity). rewrite Px. reflexivity.
  - split; [exists [(T "package.py", File (T "y"))]; reflexivity|]. split; [intros [r [Q|Q]]; discriminate|]. intros [c Q]. discriminate.
Qed.
Print Assumptions C208_version.
Print Assumptions C208_any_partial.
Print Assumptions C208_latest_refuted.
Example C208_example : get_package two_shelf (T "maya") (Some (T "2021")) = Some (parse_version (T "2021")) /\ get_package two_hidden (T "maya") (Some (T "2020")) = None /\ get_package two_hidden (T "maya") None = Some (parse_version (T "2021")).
Proof. vm_compute. auto. Qed.

(** ** C209: listing families *)
Theorem C209_families s : tidy_shelf s ->
  match iter_families s with
  | Some l => NoDup l /\ forall n, In n l <-> (exists es, look s [n] = Some (Dir es)) /\ ~ unlisted_name n
  | None => s = None
  end.
Proof.
  intros Ht. destruct s as [es|]; [|reflexivity]. cbn [iter_families]. cbn [tidy_shelf] in Ht. apply tidy_dir in Ht as [Nd _]. split; [apply (nodup_filter_keys _ es Nd)|]. intros n. rewrite in_map_iff, <- hidden_name_iff. cbn [look get]. split.
  - intros ([m x] & <- & Q). apply filter_In in Q as [Q1 Q2]. cbn [fst snd] in *. apply andb_true_iff in Q2 as [Q2 Q3]. apply negb_true_iff in Q3. rewrite (aget_nodup m x es Nd Q1). destruct x; try discriminate. split; [eauto|congruence].
  - intros [[fs Q] U]. destruct (aget n es) as [y|] eqn:G; [|discriminate]. injection Q as ->. exists (n, Dir fs). split; [reflexivity|]. apply filter_In. split; [apply aget_in, G|]. cbn [fst snd is_directory]. apply not_true_is_false in U. rewrite U. reflexivity.
Qed.
Theorem C209_empty s : tidy_shelf s -> (is_empty_shelf s = Some true <-> s <> None /\ forall n es, look s [n] = Some (Dir es) -> unlisted_name n).
Proof.
  intros Ht. pose proof (C209_families s Ht) as F. unfold is_empty_shelf. destruct (iter_families s) as [l|] eqn:E.
  - assert (s <> None) by (intros ->; discriminate). destruct F as [_ F]. destruct l as [|n l]; cbn [is_nil]; split; try discriminate.
    + intros _. split; [assumption|]. intros n es Hn. rewrite <- hidden_name_iff. destruct (hidden_name n) eqn:U; [reflexivity|]. exfalso. apply (proj2 (F n)). split; [eauto|]. rewrite <- hidden_name_iff. congruence.
    + reflexivity.
    + intros [_ Q]. destruct (proj1 (F n) (or_introl eq_refl)) as [[es Hn] U]. destruct (U (Q n es Hn)).
  - subst s. split; [discriminate|]. intros [Q _]. congruence.
Qed.
(** a family that is not listed is found all the same *)
Definition under_shelf : list (text * node) := [(T "_old", Dir [(T "1.0", Dir [])])].
Theorem C209_found_refuted : ~ (forall es n, has_family (Dir es) [] n = true -> exists l, iter_families (Some es) = Some l /\ In n l).
Proof. intros H. destruct (H under_shelf (T "_old") eq_refl) as (l & A & B). vm_compute in A. injection A as <-. destruct B. Qed.
(** hiding a version that may be missing makes a family *)
Theorem C209_made_refuted : ~ (forall io name v s k z s' n l l', ignore_package io false name (Some v) true s k = (Done z, s') -> reads_as name n -> iter_families s = Some l -> iter_families s' = Some l' -> l' = l).
Proof.
  intros H. specialize (H no_failure (T "maya") (T "1") (Some []) 0 1%Z (Some [(T "maya", Dir [(T ".ignore1", File [])])]) (T "maya") [] [T "maya"] eq_refl). assert (R : reads_as (T "maya") (T "maya")) by (apply component_iff; reflexivity). specialize (H R eq_refl eq_refl). discriminate.
Qed.
(** with a version that is there, hiding makes none *)
Theorem C209_kept_partial io ro name v s k r s' : ignore_package io ro name (Some v) false s k = (r, s') -> iter_families s <> None -> iter_families s' = iter_families s.
Proof.
  intros H Hs. unfold ignore_package, ignore_at in H. destruct ro; [injection H as <- <-; reflexivity|]. destruct (component v) as [w|]; [|injection H as <- <-; reflexivity]. destruct (component name) as [n|]; [|injection H as <- <-; reflexivity]. cbn [negb andb] in H. destruct (version_dir s n w) eqn:V; [|cbn [negb] in H; injection H as <- <-; reflexivity]. cbn [negb] in H.
  destruct (make_family io s n k) as [[s1 fs]|] eqn:M; [|injection H as <- <-; reflexivity]. apply make_family_spec in M as [F D]. unfold version_dir in V. destruct D as [[-> D]|(_ & _ & D)]; [|rewrite D in V; discriminate].
  destruct (has_slash v); [injection H as <- <-; reflexivity|]. destruct (aget (marker v) fs); [injection H as <- <-; reflexivity|]. destruct (io (S k)); [injection H as <- <-; reflexivity|]. injection H as <- <-. destruct s as [es|]; [|destruct Hs; reflexivity]. unfold with_family, iter_families. cbn [rows]. f_equal.
  unfold family in F. cbn [rows] in F. clear -F. induction es as [|[m x] es IH]; cbn [aget] in F; [discriminate|]. cbn [aput]. destruct (text_eqb_spec n m) as [->|Nm].
  - destruct x; try discriminate. cbn [filter fst snd is_directory]. destruct (hidden_name m); reflexivity.
  - cbn [filter]. destruct (is_directory (snd (m, x)) && negb (hidden_name (fst (m, x)))); cbn [map]; rewrite IH by exact F; reflexivity.
Qed.
Print Assumptions C209_families.
Print Assumptions C209_empty.
Print Assumptions C209_found_refuted.
Print Assumptions C209_made_refuted.
Print Assumptions C209_kept_partial.
Example C209_example : iter_families two_shelf = Some [T "maya"; T "nuke"] /\ iter_families two_hidden = Some [T "maya"; T "nuke"] /\ is_empty_shelf (Some under_shelf) = Some true /\ is_empty_shelf None = None.
Proof. vm_compute. auto. Qed.
