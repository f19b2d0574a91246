(** Proofs about removing packages from the repository on disk. *)
From Verif Require Import Base Base_lemmas Text_lemmas Maps Version_model Range_model Requirement_text Files_model Files_spec Files_proofs Shelf_model Shelf_spec Shelf_proofs.
From Coq Require Import Lia.
Open Scope string_scope. Open Scope list_scope.

Lemma aput_twice {A} k (a b : A) m : aput k a (aput k b m) = aput k a m.
Proof. induction m as [|[x y] m IH]; cbn [aput]; [rewrite text_eqb_refl; reflexivity|]. destruct (text_eqb k x) eqn:E; cbn [aput]; [rewrite text_eqb_refl; reflexivity|]. rewrite E, IH. reflexivity. Qed.
Lemma with_twice s n a b : with_family (with_family s n a) n b = with_family s n b.
Proof. unfold with_family. cbn [rows]. rewrite aput_twice. reflexivity. Qed.
Lemma aput_back {A} k (a : A) m : aget k m = Some a -> aput k a m = m.
Proof. induction m as [|[x y] m IH]; cbn [aget aput]; [discriminate|]. destruct (text_eqb_spec k x) as [->|N]; [intros [= ->]; reflexivity|]. intros H. rewrite IH by exact H. reflexivity. Qed.
Lemma with_back s n fs : family s n = Some fs -> with_family s n fs = s.
Proof. unfold family, with_family. destruct s as [es|]; [|discriminate]. cbn [rows]. destruct (aget n es) as [[c|t| |gs]|] eqn:G; try discriminate. intros [= ->]. rewrite aput_back by exact G. reflexivity. Qed.
Lemma adel_put {A} k (a : A) m : aget k m = None -> adel k (aput k a m) = m.
Proof.
  unfold adel. induction m as [|[x y] m IH]; cbn [aget aput filter fst].
  - rewrite text_eqb_refl. reflexivity.
  - destruct (text_eqb k x) eqn:E; [discriminate|]. intros H. cbn [filter fst]. rewrite E. cbn [negb]. rewrite IH by exact H. reflexivity.
Qed.

Section Io.
Variable io : nat -> bool.
Variable junk : nat -> list (text * node).
(** what the family holds before the payload goes *)
Definition marked (v : text) (fs : list (text * node)) : list (text * node) := match aget (marker v) fs with Some _ => fs | None => aput (marker v) (File []) fs end.
Lemma ignore_form name version s k n fs : component name = Some n -> plain_name version -> family s n = Some fs -> dir_in version fs = true ->
  ignore_at io s name version false k = if io k then (Failed, s) else match aget (marker version) fs with Some _ => (Done 0%Z, s) | None => if io (S k) then (Failed, s) else (Done 1%Z, with_family s n (marked version fs)) end.
Proof.
  intros Hn Pl F Hd. unfold ignore_at, make_family. rewrite (component_plain _ Pl), Hn. unfold version_dir. rewrite F, Hd. cbn [negb andb]. destruct (io k); [reflexivity|].
  unfold family in F. destruct (aget n (rows s)) as [[c|t| |gs]|] eqn:G; try discriminate. injection F as ->. rewrite (plain_slash _ Pl). unfold marked. destruct (aget (marker version) fs); reflexivity.
Qed.
Lemma remove_form name version s k n fs : component name = Some n -> plain_name version -> family s n = Some fs -> dir_in version fs = true ->
  remove_package io junk false name (Some version) s k =
    if io k || (match aget (marker version) fs with None => io (S k) | Some _ => false end) then (Failed, s)
    else if io (2 + k) then (Failed, with_family s n (aput version (Dir (junk (2 + k))) (marked version fs)))
    else match aget (marker version) fs with
         | Some (Dir _) => (Failed, with_family s n (adel version (marked version fs)))
         | _ => if io (3 + k) then (Failed, with_family s n (adel version (marked version fs))) else (Done true, with_family s n (adel (marker version) (adel version (marked version fs))))
         end.
Proof.
  intros Hn Pl F Hd. unfold remove_package. rewrite (ignore_form name version s k n fs Hn Pl F Hd), (component_plain _ Pl), Hn. destruct (io k); [reflexivity|]. cbn [orb].
  assert (Dr : forall s1 fs1, family s1 n = Some fs1 -> (s1 = s \/ exists a, s1 = with_family s n a) -> drop_marker io s1 n version (3 + k) = match aget (marker version) fs1 with None => Some (false, s1) | Some (Dir _) => None | Some _ => if io (3 + k) then None else Some (true, with_family s n (adel (marker version) fs1)) end).
  { intros s1 fs1 F1 E1. unfold drop_marker. rewrite F1, (component_plain _ Pl), (plain_slash _ Pl). cbn [orb]. assert (W : forall b, with_family s1 n b = with_family s n b) by (intros b; destruct E1 as [->|[a ->]]; [reflexivity|apply with_twice]). rewrite W. reflexivity. }
  assert (Nm : marker version <> version) by apply marker_not.
  destruct (aget (marker version) fs) as [x|] eqn:G.
  - cbn [Z.eqb]. rewrite F. destruct (io (2 + k)); [unfold marked; rewrite G; reflexivity|]. rewrite (Dr _ (adel version fs)) by (rewrite ?family_with; eauto). rewrite aget_del_other by exact Nm. rewrite G. unfold marked. rewrite G. destruct x; try reflexivity; destruct (io (3 + k)); reflexivity.
  - destruct (io (S k)); [reflexivity|]. cbn [Z.eqb]. rewrite family_with, !with_twice. destruct (io (2 + k)); [reflexivity|]. rewrite (Dr _ (adel version (marked version fs))) by (rewrite ?family_with; eauto).
    rewrite aget_del_other by exact Nm. unfold marked. rewrite G, aget_put_same. destruct (io (3 + k)); reflexivity.
Qed.
Lemma remove_none name version s k n v : component name = Some n -> component version = Some v -> version_dir s n v = false -> remove_package io junk false name (Some version) s k = (Done false, s).
Proof. intros Hn Hv H. unfold remove_package, ignore_at. rewrite Hn, Hv, H. reflexivity. Qed.
Lemma remove_slash name version s k n v : component name = Some n -> component version = Some v -> version_dir s n v = true -> has_slash version = true -> remove_package io junk false name (Some version) s k = (Failed, s).
Proof.
  intros Hn Hv H Hs. unfold remove_package, ignore_at, make_family. rewrite Hn, Hv, H. cbn [negb andb]. destruct (io k); [reflexivity|]. unfold version_dir, family in H. destruct (aget n (rows s)) as [[c|t| |gs]|]; try discriminate. rewrite Hs. reflexivity.
Qed.
Lemma marked_get v fs : aget (marker v) (marked v fs) = match aget (marker v) fs with Some x => Some x | None => Some (File []) end.
Proof. unfold marked. destruct (aget (marker v) fs) eqn:G; [exact G|apply aget_put_same]. Qed.
Lemma marked_other v fs c : c <> marker v -> aget c (marked v fs) = aget c fs.
Proof. intros H. unfold marked. destruct (aget (marker v) fs); [reflexivity|apply aget_put_other, H]. Qed.
Lemma remove_sem ro name version s k r s' n : remove_package io junk ro name (Some version) s k = (r, s') -> reads_as name n ->
  touches [[n; version]; [n; ignore_file version]] s s' /\
  match r with
  | Done true => plain_name version /\ has_version s n version /\ look s' [n; version] = None /\ look s' [n; ignore_file version] = None
  | Done false => s' = s /\ forall v, reads_as version v -> ~ has_version s n v
  | Failed => s' = s \/ plain_name version /\ has_version s n version /\ look s' [n; ignore_file version] = match look s [n; ignore_file version] with Some x => Some x | None => Some (File []) end
  end.
Proof.
  intros H Hn. apply component_iff in Hn. destruct ro; [injection H as <- <-; auto using touches_refl|].
  destruct (component version) as [v|] eqn:Ev; [|unfold remove_package in H; rewrite Ev in H; injection H as <- <-; auto using touches_refl].
  destruct (version_dir s n v) eqn:V.
  2:{ rewrite (remove_none name version s k n v Hn Ev V) in H. injection H as <- <-. split; [apply touches_refl|]. split; [reflexivity|]. intros w Hw. apply component_iff in Hw. assert (w = v) by congruence. subst w. apply version_dir_false, V. }
  destruct (has_slash version) eqn:Es; [rewrite (remove_slash name version s k n v Hn Ev V Es) in H; injection H as <- <-; auto using touches_refl|].
  pose proof (component_slash _ _ Ev Es) as <-. pose proof (component_sound _ _ Ev) as Pl. assert (Hv : has_version s n version) by (apply version_dir_iff, V). unfold version_dir in V. destruct (family s n) as [fs|] eqn:F; [|discriminate].
  rewrite (remove_form name version s k n fs Hn Pl F V) in H. assert (Nm : marker version <> version) by apply marker_not.
  assert (Fr : forall fs', (forall c, c <> version -> c <> marker version -> aget c fs' = aget c fs) -> touches [[n; version]; [n; ignore_file version]] s (with_family s n fs')).
  { intros fs' Hf. apply (touches_family s n fs fs' version [ignore_file version] F). intros c Hc. apply Hf; intros ->; apply Hc; [left|right; left]; reflexivity. }
  assert (Lo : look s [n; ignore_file version] = aget (marker version) fs). { rewrite (look_in s n fs _ F). cbn [get]. change (ignore_file version) with (marker version). destruct (aget (marker version) fs); reflexivity. }
  assert (Bad : forall fs', aget (marker version) fs' = aget (marker version) (marked version fs) -> look (with_family s n fs') [n; ignore_file version] = match look s [n; ignore_file version] with Some x => Some x | None => Some (File []) end).
  { intros fs' Hf. rewrite look_with, Lo. cbn [get]. change (ignore_file version) with (marker version). rewrite Hf, marked_get. destruct (aget (marker version) fs); reflexivity. }
  destruct (io k || _); [injection H as <- <-; auto using touches_refl|].
  destruct (io (2 + k)).
  { injection H as <- <-. split; [apply Fr; intros c A B; rewrite aget_put_other by exact A; apply marked_other, B|]. right. split; [exact Pl|]. split; [exact Hv|]. apply Bad. apply aget_put_other, Nm. }
  assert (De : touches [[n; version]; [n; ignore_file version]] s (with_family s n (adel version (marked version fs)))) by (apply Fr; intros c A B; rewrite aget_del_other by exact A; apply marked_other, B).
  assert (Bd : look (with_family s n (adel version (marked version fs))) [n; ignore_file version] = match look s [n; ignore_file version] with Some x => Some x | None => Some (File []) end) by (apply Bad, aget_del_other, Nm).
  assert (Go : touches [[n; version]; [n; ignore_file version]] s (with_family s n (adel (marker version) (adel version (marked version fs))))) by (apply Fr; intros c A B; rewrite aget_del_other by exact B; rewrite aget_del_other by exact A; apply marked_other, B).
  assert (Gl : look (with_family s n (adel (marker version) (adel version (marked version fs)))) [n; version] = None /\ look (with_family s n (adel (marker version) (adel version (marked version fs)))) [n; ignore_file version] = None).
  { rewrite !look_with. cbn [get]. change (ignore_file version) with (marker version). rewrite aget_del_same. rewrite aget_del_other by congruence. rewrite aget_del_same. auto. }
  destruct (aget (marker version) fs) as [[c|t| |gs]|]; try (destruct (io (3 + k))); injection H as <- <-; (split; [assumption|]); auto; tauto.
Qed.
Lemma remove_runs name version s k n : (forall j, io j = false) -> reads_as name n -> plain_name version -> marker_free s n version -> fst (remove_package io junk false name (Some version) s k) = Done (version_dir s n version).
Proof.
  intros Io Hn Pl Mf. apply component_iff in Hn. destruct (version_dir s n version) eqn:V; [|rewrite (remove_none name version s k n version Hn (component_plain _ Pl) V); reflexivity].
  unfold version_dir in V. destruct (family s n) as [fs|] eqn:F; [|discriminate]. rewrite (remove_form name version s k n fs Hn Pl F V), !Io.
  specialize (Mf). unfold marker_free in Mf. rewrite (look_in s n fs _ F) in Mf. cbn [get] in Mf. change (ignore_file version) with (marker version) in Mf.
  destruct (aget (marker version) fs) as [x|]; [|reflexivity]. destruct (Mf x eq_refl) as [c ->]. reflexivity.
Qed.

(** ** families *)
Lemma remove_family_sem ro name force s k r s' n : remove_family io junk ro name force s k = (r, s') -> reads_as name n ->
  touches [[n]] s s' /\
  match r with
  | Done true => (exists es, look s [n] = Some (Dir es)) /\ look s' [n] = None /\ (force = false -> forall v, has_version s n v -> exists w, v = "."%char :: w)
  | Done false => s' = s /\ forall es, look s [n] <> Some (Dir es)
  | Failed => s' = s \/ (exists es, look s' [n] = Some (Dir es)) /\ (force = false -> forall v, has_version s n v -> exists w, v = "."%char :: w)
  end.
Proof.
  intros H Hn. apply component_iff in Hn. unfold remove_family in H. destruct ro; [injection H as <- <-; auto using touches_refl|]. rewrite Hn in H. pose proof (look_family s n) as L. destruct (family s n) as [fs|] eqn:F; [|injection H as <- <-; auto using touches_refl].
  destruct (negb force && _) eqn:X; [injection H as <- <-; auto using touches_refl|].
  assert (V : force = false -> forall v, has_version s n v -> exists w, v = "."%char :: w).
  { intros -> v [es Hv]. rewrite (look_in s n fs _ F) in Hv. cbn [get] in Hv. destruct (aget v fs) as [x|] eqn:G; [|discriminate]. injection Hv as ->. cbn [negb andb] in X. destruct (starts_with (T ".") v) eqn:Sv.
    - apply starts_with_spec in Sv as [w ->]. exists w. reflexivity.
    - exfalso. apply not_true_iff_false in X. apply X. apply existsb_exists. exists (v, Dir es). split; [apply aget_in, G|]. cbn [fst snd is_directory]. rewrite Sv. reflexivity. }
  assert (Tn : forall s1, (forall m p, m <> n -> look s1 (m :: p) = look s (m :: p)) -> touches [[n]] s s1).
  { intros s1 Hs q Hq. specialize (Hq _ (or_introl eq_refl)). destruct q as [|m q]; [destruct Hq as [_ Hq]; destruct Hq; apply under_nil|]. apply Hs. intros ->. destruct Hq as [Hq _]. apply Hq. apply under_cons. auto using under_nil. }
  destruct (io k); injection H as <- <-.
  - split; [apply Tn; intros m p Nm; apply look_with_other, Nm|]. right. split; [|exact V]. rewrite look_with. cbn [get]. eauto.
  - split.
    + apply Tn. intros m p Nm. unfold look. cbn [get]. rewrite aget_del_other by exact Nm. destruct s; reflexivity.
    + split; [eauto|]. split; [|exact V]. unfold look. cbn [get]. rewrite aget_del_same. reflexivity.
Qed.
End Io.

(** ** cleaning *)
Section Old.
Variable age : text -> text -> option N.
Variable least : N.
Lemma old_markers_spec n fs : forall l, old_markers age least n fs = Some l ->
  forall m v, In (m, v) l <-> m = n /\ v <> [] /\ (exists c, In (marker v, File c) fs) /\ exists a, age n v = Some a /\ (least <= a)%N.
Proof.
  induction fs as [|[f x] fs IH]; intros l H m v; cbn [old_markers] in H.
  - injection H as <-. split; [intros []|intros (_ & _ & [c []] & _)].
  - assert (Skip : forall l', old_markers age least n fs = Some l' -> (forall c, (f, x) = (marker v, File c) -> v <> [] -> exists a, age n v = Some a /\ ~ (least <= a)%N) -> (In (m, v) l' <-> m = n /\ v <> [] /\ (exists c, In (marker v, File c) ((f, x) :: fs)) /\ exists a, age n v = Some a /\ (least <= a)%N)).
    { intros l' Hl Hx. rewrite (IH l' Hl m v). split; intros (A & B & [c C] & D); (split; [exact A|split; [exact B|split; [|exact D]]]).
      - exists c. right. exact C.
      - destruct C as [C|C]; [|eauto]. destruct (Hx c C B) as (a & Ha & Hb). destruct D as (a' & Ha' & Hb'). assert (a' = a) by congruence. subst a'. contradiction. }
    destruct (strip_prefix (T ".ignore") f) as [w|] eqn:E.
    + apply strip_prefix_spec in E. change (T ".ignore" ++ w) with (marker w) in E. subst f. destruct (is_nil w || negb (is_file x)) eqn:B.
      { apply Skip; [exact H|]. intros c Hc Nv. injection Hc as Ew ->. subst w. destruct v; [congruence|discriminate]. }
      apply orb_false_iff in B as [B1 B2]. destruct (age n w) as [a|] eqn:Ea; [|discriminate]. destruct (old_markers age least n fs) as [l0|] eqn:El; [|discriminate].
      destruct (N.leb_spec least a) as [Le|Gt]; injection H as <-.
      * assert (Sk := Skip). clear Skip. split.
        -- intros [Q|Q]; [injection Q as <- <-|].
           ++ split; [reflexivity|]. split; [intros ->; discriminate|]. split; [|eauto]. destruct x; try discriminate. exists c. left. reflexivity.
           ++ apply (IH l0 eq_refl) in Q as (A & B & [c C] & D). split; [exact A|split; [exact B|split; [|exact D]]]. exists c. right. exact C.
        -- intros (A & B & [c C] & D). destruct C as [C|C].
           ++ injection C as Ew ->. subst. left. reflexivity.
           ++ right. apply (IH l0 eq_refl). repeat split; eauto.
      * apply Skip; [reflexivity|]. intros c Hc Nv. injection Hc as Ew ->. subst w. exists a. split; [exact Ea|]. lia.
    + apply Skip; [exact H|]. intros c Hc _. injection Hc as -> ->. unfold marker in E. rewrite strip_prefix_app in E. discriminate.
Qed.
Lemma old_markers_nodup n fs : NoDup (akeys fs) -> forall l, old_markers age least n fs = Some l -> NoDup l.
Proof.
  induction fs as [|[f x] fs IH]; intros Nd l H; cbn [old_markers] in H; [injection H as <-; constructor|]. inversion Nd as [|? ? Nf Nd']; subst.
  destruct (strip_prefix (T ".ignore") f) as [w|] eqn:E; [|apply IH; assumption]. destruct (is_nil w || negb (is_file x)); [apply IH; assumption|]. destruct (age n w); [|discriminate]. destruct (old_markers age least n fs) as [l0|] eqn:El; [|discriminate].
  destruct (least <=? n0)%N; injection H as <-; [|apply IH; auto]. constructor; [|apply IH; auto]. intros Q. apply (old_markers_spec n fs l0 El) in Q as (_ & _ & [c C] & _). apply strip_prefix_spec in E. apply Nf. rewrite E. apply (in_map fst) in C. exact C.
Qed.
Lemma old_ignored_in es : forall cs, old_ignored age least es = Some cs -> forall n v, In (n, v) cs <-> exists fs l, In (n, Dir fs) es /\ old_markers age least n fs = Some l /\ In (n, v) l.
Proof.
  induction es as [|[m x] es IH]; intros cs H n v; cbn [old_ignored] in H.
  - injection H as <-. split; [intros []|intros (? & ? & [] & _)].
  - destruct x as [c|t| |gs].
    1-3: rewrite (IH cs H n v); split; intros (fs & l & A & B); [exists fs, l; split; [right; exact A|exact B]|destruct A as [A|A]; [discriminate|exists fs, l; split; [exact A|exact B]]].
    destruct (old_markers age least m gs) as [a|] eqn:Ea; [|discriminate]. destruct (old_ignored age least es) as [b|] eqn:Eb; [|discriminate]. injection H as <-. rewrite in_app_iff, (IH b eq_refl n v). split.
    + intros [Q|(fs & l & A & B)]; [|exists fs, l; split; [right; exact A|exact B]]. pose proof (proj1 (old_markers_spec m gs a Ea n v) Q) as [-> _]. exists gs, a. split; [left; reflexivity|auto].
    + intros (fs & l & [A|A] & B & C); [|right; exists fs, l; auto]. injection A as -> ->. left. congruence.
Qed.
Lemma old_ignored_spec es cs : tidy_shelf (Some es) -> old_ignored age least es = Some cs -> NoDup cs /\ forall n v, In (n, v) cs <-> long_hidden age least (Some es) n v.
Proof.
  intros Ht H. assert (Ht' := Ht). cbn [tidy_shelf] in Ht. apply tidy_dir in Ht as [Nd Fa]. split.
  - clear Ht'. revert cs H Nd Fa. induction es as [|[m x] es IH]; intros cs H Nd Fa; cbn [old_ignored] in H; [injection H as <-; constructor|]. inversion Nd as [|? ? Nm Nd']; subst. inversion Fa as [|? ? Fx Fa']; subst.
    destruct x as [c|t| |gs]; try (apply IH; assumption). destruct (old_markers age least m gs) as [a|] eqn:Ea; [|discriminate]. destruct (old_ignored age least es) as [b|] eqn:Eb; [|discriminate]. injection H as <-.
    cbn [snd] in Fx. apply tidy_dir in Fx as [Ng _]. assert (Na := old_markers_nodup m gs Ng a Ea). specialize (IH b eq_refl Nd' Fa').
    assert (Dis : forall p, In p a -> ~ In p b). { intros [n v] A B. apply (old_markers_spec m gs a Ea) in A as [-> _]. apply (old_ignored_in es b Eb) in B as (fs & l & B & _). apply Nm. apply (in_map fst) in B. exact B. }
    clear -Na IH Dis. induction a as [|p a IHa]; cbn [app]; [exact IH|]. inversion Na; subst. constructor.
    + rewrite in_app_iff. intros [Q|Q]; [contradiction|]. apply (Dis p); [left; reflexivity|exact Q].
    + apply IHa; [assumption|]. intros q Hq. apply Dis. right. exact Hq.
  - intros n v. rewrite (old_ignored_in es cs H n v). unfold long_hidden, hidden. split.
    + intros (fs & l & A & B & C). apply (old_markers_spec n fs l B) in C as (_ & Nv & [c Hc] & D). split; [exact Nv|]. split; [|exact D]. exists c. cbn [look get].
      assert (G : aget n es = Some (Dir fs)) by (apply aget_nodup; assumption). rewrite G. assert (F : family (Some es) n = Some fs) by (unfold family; cbn [rows]; rewrite G; reflexivity).
      change (ignore_file v) with (marker v). cbn [get]. rewrite (aget_nodup (marker v) (File c) fs); [reflexivity|apply (tidy_family _ n fs Ht' F)|exact Hc].
    + intros (Nv & [c Hc] & D). cbn [look get] in Hc. destruct (aget n es) as [[?|?| |fs]|] eqn:G; try discriminate. cbn [get] in Hc. change (ignore_file v) with (marker v) in Hc. destruct (aget (marker v) fs) as [y|] eqn:Gm; [|discriminate]. injection Hc as ->.
      apply aget_in in G. assert (exists l, old_markers age least n fs = Some l) as [l Hl].
      { clear -H G. revert cs H. induction es as [|[m x] es IH]; intros cs H; [destruct G|]. cbn [old_ignored] in H. destruct G as [Q|Q].
        - injection Q as -> ->. destruct (old_markers age least n fs) eqn:E; [eauto|discriminate].
        - destruct x; eauto. destruct (old_markers age least m es0); [|discriminate]. destruct (old_ignored age least es) eqn:E; [|discriminate]. eauto. }
      exists fs, l. split; [exact G|]. split; [exact Hl|]. apply (old_markers_spec n fs l Hl). split; [reflexivity|]. split; [exact Nv|]. split; [exists c; apply aget_in, Gm|exact D].
Qed.
Lemma old_ignored_runs es : (forall n v, age n v <> None) -> exists cs, old_ignored age least es = Some cs.
Proof.
  intros Ha. assert (M : forall n fs, exists l, old_markers age least n fs = Some l).
  { intros n. induction fs as [|[f x] fs [l IH]]; cbn [old_markers]; [eauto|]. destruct (strip_prefix (T ".ignore") f); [|eauto]. destruct (is_nil t || negb (is_file x)); [eauto|]. rewrite IH. destruct (age n t) eqn:E; [eauto|destruct (Ha n t E)]. }
  induction es as [|[m [c|t| |gs]] es [b IH]]; cbn [old_ignored]; eauto. destruct (M m gs) as [a ->]. rewrite IH. eauto.
Qed.
End Old.
Definition places (c : text * text) : list path := [[fst c; snd c]; [fst c; ignore_file (snd c)]].
Section Each.
Variable io : nat -> bool.
Variable junk : nat -> list (text * node).
Lemma each_touches cs : Forall (fun c => plain_name (fst c)) cs -> forall a s k r s', remove_each_old io junk cs a s k = (r, s') -> touches (flat_map places cs) s s'.
Proof.
  induction 1 as [|[n v] cs Hn _ IH]; intros a s k r s' H; cbn [remove_each_old] in H; [injection H as <- <-; apply touches_refl|]. cbn [fst] in Hn.
  destruct (remove_package io junk false n (Some v) s k) as [o s1] eqn:E. apply (remove_sem io junk false n v s k o s1 n) in E as [E _]; [|split; [exact Hn|exists []; cbn; rewrite app_nil_r; reflexivity]].
  assert (E1 : touches (flat_map places ((n, v) :: cs)) s s1) by (apply (touches_more _ _ _ _ E); intros p Hp; cbn [flat_map]; apply in_app_iff; left; exact Hp).
  destruct o as [b|]; [|injection H as <- <-; exact E1]. apply IH in H. eapply touches_trans; [exact E1|]. apply (touches_more _ _ _ _ H). intros p Hp. cbn [flat_map]. apply in_app_iff. right. exact Hp.
Qed.
Lemma reads_self n : plain_name n -> reads_as n n.
Proof. intros H. split; [exact H|]. exists []. cbn. rewrite app_nil_r. reflexivity. Qed.
Lemma has_version_dec s n v : has_version s n v \/ ~ has_version s n v.
Proof. rewrite <- version_dir_iff. destruct (version_dir s n v); auto. Qed.
Lemma each_runs : (forall j, io j = false) -> forall cs a s k, NoDup cs -> (forall n v, In (n, v) cs -> plain_name n /\ plain_name v /\ hidden s n v) ->
  exists s', remove_each_old io junk cs a s k = (Done (a + Z.of_nat (length (filter (fun c => version_dir s (fst c) (snd c)) cs)))%Z, s') /\
    (forall n v, In (n, v) cs -> has_version s n v -> look s' [n; v] = None /\ look s' [n; ignore_file v] = None) /\
    (forall q, (forall n v, In (n, v) cs -> has_version s n v -> apart [n; v] q /\ apart [n; ignore_file v] q) -> look s' q = look s q).
Proof.
  intros Io. induction cs as [|[n v] cs IH]; intros a s k Nd Hc.
  - exists s. cbn [remove_each_old filter length]. rewrite Z.add_0_r. split; [reflexivity|]. split; [intros ? ? []|reflexivity].
  - inversion Nd as [|? ? Nv Nd']; subst. destruct (Hc n v (or_introl eq_refl)) as (Pn & Pv & [c0 Hh]). cbn [remove_each_old].
    assert (Mf : marker_free s n v) by (intros x Hx; rewrite Hh in Hx; injection Hx as <-; eauto).
    pose proof (remove_runs io junk n v s k n Io (reads_self n Pn) Pv Mf) as R. destruct (remove_package io junk false n (Some v) s k) as [o s1] eqn:E. cbn [fst] in R. subst o.
    pose proof (remove_sem io junk false n v s k _ s1 n E (reads_self n Pn)) as [Tc Sm]. cbn [filter fst snd]. destruct (version_dir s n v) eqn:V.
    + destruct Sm as (_ & Hv & L1 & L2). assert (Hv' := Hv). destruct Hv' as [es0 Hv'].
      assert (Keep : forall m w, In (m, w) cs -> hidden s1 m w /\ (has_version s1 m w <-> has_version s m w)).
      { intros m w Hm. destruct (Hc m w (or_intror Hm)) as (_ & _ & [c1 Hw]). assert (Ne : (m, w) <> (n, v)) by (intros Q; rewrite Q in Hm; contradiction). split.
        - exists c1. rewrite Tc; [exact Hw|]. intros p [<-|[<-|[]]]; apply apart_two; destruct (text_eqb_spec m n) as [->|?]; auto; right; intros Q.
          + rewrite Q in Hw. congruence.
          + apply marker_inj in Q. subst w. congruence.
        - unfold has_version. destruct (text_eqb_spec m n) as [->|Nm].
          + destruct (text_eqb_spec w (ignore_file v)) as [->|Nw].
            * rewrite L2, Hh. split; intros [? Q]; discriminate.
            * rewrite Tc; [reflexivity|]. intros p [<-|[<-|[]]]; apply apart_two; right; congruence.
          + rewrite Tc; [reflexivity|]. intros p [<-|[<-|[]]]; apply apart_two; auto. }
      destruct (IH (a + 1)%Z s1 (4 + k) Nd') as (s' & R & G & Fr).
      { intros m w Hm. destruct (Hc m w (or_intror Hm)) as (A & B & _). split; [exact A|]. split; [exact B|]. apply Keep, Hm. }
      exists s'. split; [|split].
      * rewrite R. f_equal. f_equal. cbn [length]. rewrite (filter_ext_in (fun c => version_dir s1 (fst c) (snd c)) (fun c => version_dir s (fst c) (snd c))); [lia|]. intros [m w] Hm. cbn [fst snd]. apply Keep in Hm as [_ Hm]. apply eq_iff_eq_true. rewrite !version_dir_iff. exact Hm.
      * intros m w [Q|Hm] Hw.
        -- injection Q as <- <-. split.
           ++ rewrite Fr; [exact L1|]. intros m w Hm Hw'. split; apply apart_two; destruct (text_eqb_spec n m) as [<-|?]; auto; right; intros Q.
              ** subst w. contradiction.
              ** destruct (Keep n w Hm) as [[c1 Hk] _]. rewrite <- Q, L1 in Hk. discriminate.
           ++ rewrite Fr; [exact L2|]. intros m w Hm Hw'. split; apply apart_two; destruct (text_eqb_spec n m) as [<-|?]; auto; right; intros Q.
              ** destruct Hw' as [es1 Hw']. rewrite <- Q, L2 in Hw'. discriminate.
              ** apply marker_inj in Q. subst w. contradiction.
        -- apply G; [exact Hm|]. apply Keep; assumption.
      * intros q Hq. rewrite Fr.
        -- apply Tc. destruct (Hq n v (or_introl eq_refl) Hv) as [A B]. intros p [<-|[<-|[]]]; assumption.
        -- intros m w Hm Hw. apply Hq; [right; exact Hm|]. apply Keep; assumption.
    + destruct Sm as [-> Nh]. assert (Nh' : ~ has_version s n v) by (apply version_dir_false, V). destruct (IH a s (4 + k) Nd') as (s' & R & G & Fr); [intros m w Hm; apply Hc; right; exact Hm|].
      exists s'. split; [exact R|]. split.
      * intros m w [Q|Hm] Hw; [injection Q as <- <-; contradiction|]. apply G; assumption.
      * intros q Hq. apply Fr. intros m w Hm Hw. apply Hq; [right; exact Hm|exact Hw].
Qed.
End Each.
