(** Proofs about the repository on disk. *)
From Verif Require Import Base Base_lemmas Text_lemmas Maps Version_model Range_model Files_model Files_spec Files_proofs Shelf_model Shelf_spec.
From Coq Require Import Lia.
Open Scope string_scope. Open Scope list_scope.

(** ** looking *)
Lemma look_family s n : match family s n with Some fs => look s [n] = Some (Dir fs) | None => forall fs, look s [n] <> Some (Dir fs) end.
Proof.
  unfold family, look. destruct s as [es|]; cbn [rows aget]; [|discriminate]. cbn [get]. destruct (aget n es) as [[c|t| |fs]|]; try (intros fs'; discriminate). reflexivity.
Qed.
Lemma look_in s n fs p : family s n = Some fs -> look s (n :: p) = get p (Dir fs).
Proof. unfold family, look. destruct s as [es|]; [|discriminate]. cbn [rows get]. destruct (aget n es) as [[c|t| |gs]|]; try discriminate. intros [= ->]. reflexivity. Qed.
Lemma look_none s n c p : family s n = None -> look s (n :: c :: p) = None.
Proof. unfold family, look. destruct s as [es|]; [|reflexivity]. cbn [rows get]. destruct (aget n es) as [[x|t| |gs]|]; try discriminate; reflexivity. Qed.
Lemma look_with s n fs p : look (with_family s n fs) (n :: p) = get p (Dir fs).
Proof. unfold with_family, look. cbn [get]. rewrite aget_put_same. reflexivity. Qed.
Lemma look_with_other s n fs m p : m <> n -> look (with_family s n fs) (m :: p) = look s (m :: p).
Proof. intros H. unfold with_family, look. cbn [get]. rewrite aget_put_other by exact H. destruct s as [es|]; reflexivity. Qed.
Lemma family_with s n fs : family (with_family s n fs) n = Some fs.
Proof. unfold family, with_family. cbn [rows]. rewrite aget_put_same. reflexivity. Qed.
Lemma version_dir_iff s n v : version_dir s n v = true <-> has_version s n v.
Proof.
  unfold version_dir, has_version. destruct (family s n) as [fs|] eqn:E.
  - rewrite (look_in s n fs _ E). cbn [get]. unfold dir_in. destruct (aget v fs) as [[c|t| |gs]|]; split; try discriminate; try (intros [? H]; discriminate H); eauto.
  - rewrite (look_none s n v [] E). split; [discriminate|intros [? H]; discriminate H].
Qed.
Lemma version_dir_false s n v : version_dir s n v = false <-> ~ has_version s n v.
Proof. rewrite <- version_dir_iff. destruct (version_dir s n v); split; congruence. Qed.
Lemma hidden_name_iff n : hidden_name n = true <-> unlisted_name n.
Proof.
  unfold hidden_name, unlisted_name. rewrite orb_true_iff. destruct n as [|c n]; cbn [starts_with T list_ascii_of_string].
  - split; [intros [H|H]; discriminate|intros [r [H|H]]; discriminate].
  - rewrite !andb_true_r, !Ascii.eqb_eq. split; [intros [<-|<-]; exists n; auto|intros [r [H|H]]; injection H as -> ->; auto].
Qed.
Lemma file_in_iff s n fs v : family s n = Some fs -> file_in (marker v) fs = true <-> hidden s n v.
Proof. intros E. unfold hidden, file_in. rewrite (look_in s n fs _ E). cbn [get]. change (ignore_file v) with (marker v). destruct (aget (marker v) fs) as [[c|t| |gs]|]; split; try discriminate; try (intros [? H]; discriminate H); eauto. Qed.
Lemma tidy_family s n fs : tidy_shelf s -> family s n = Some fs -> NoDup (akeys fs).
Proof.
  unfold family, tidy_shelf. destruct s as [es|]; [|discriminate]. cbn [rows]. intros H E. apply tidy_dir in H as [_ H]. destruct (aget n es) as [[c|t| |gs]|] eqn:G; try discriminate. injection E as ->.
  apply aget_in in G. rewrite Forall_forall in H. specialize (H _ G). cbn [snd] in H. apply tidy_dir in H as [H _]. exact H.
Qed.
Lemma version_names_spec s n fs : tidy_shelf s -> family s n = Some fs -> NoDup (version_names fs) /\ forall v, In v (version_names fs) <-> shown s n v.
Proof.
  intros Ht E. pose proof (tidy_family s n fs Ht E) as N. split; [apply (nodup_filter_keys _ fs N)|]. intros v. unfold version_names, shown. rewrite <- version_dir_iff, <- hidden_name_iff, <- (file_in_iff s n fs v E). unfold version_dir. rewrite E. unfold dir_in.
  rewrite in_map_iff. split.
  - intros ([w x] & <- & H). apply filter_In in H as [H1 H2]. cbn [fst snd] in *. apply andb_true_iff in H2 as [H2 H3]. apply andb_true_iff in H2 as [H2 H4]. apply negb_true_iff in H3, H4. rewrite (aget_nodup w x fs N H1).
    destruct x; try discriminate. split; [reflexivity|]. rewrite H3, H4. split; discriminate.
  - intros (H1 & H2 & H3). destruct (aget v fs) as [x|] eqn:G; [|discriminate]. exists (v, x). split; [reflexivity|]. apply filter_In. split; [apply aget_in, G|]. cbn [fst snd]. apply not_true_is_false in H2, H3. rewrite H2, H3. destruct x; try discriminate. reflexivity.
Qed.
Lemma listing s n : tidy_shelf s -> exists vs, iter_packages s n = map parse_version vs /\ NoDup vs /\ forall v, In v vs <-> shown s n v.
Proof.
  intros Ht. unfold iter_packages. destruct (family s n) as [fs|] eqn:E.
  - exists (version_names fs). destruct (version_names_spec s n fs Ht E) as [A B]. auto.
  - exists []. split; [reflexivity|]. split; [constructor|]. intros v. split; [intros []|]. intros [[es H] _]. rewrite (look_none s n v [] E) in H. discriminate.
Qed.
(** ** names *)
Lemma plain_slash n : plain_name n -> has_slash n = false.
Proof. intros (_ & _ & _ & H). unfold has_slash. apply not_true_is_false. intros X. apply existsb_exists in X as (c & Hc & E). apply Ascii.eqb_eq in E. subst c. contradiction. Qed.
Lemma no_slash_in v : has_slash v = false <-> ~ In "/"%char v.
Proof. unfold has_slash. split; [intros H X; assert (existsb (Ascii.eqb "/") v = true) by (apply existsb_exists; exists "/"%char; split; [exact X|apply Ascii.eqb_refl]); congruence|]. intros H. apply not_true_is_false. intros X. apply existsb_exists in X as (c & Hc & E). apply Ascii.eqb_eq in E. subst c. contradiction. Qed.
Lemma split_tail n bs : ~ In "/"%char n -> split_on "/" (n ++ concat (map (fun b : bool => if b then T "/." else T "/") bs)) = n :: map (fun b : bool => if b then T "." else []) bs.
Proof.
  revert n. induction bs as [|b bs IH]; intros n H; cbn [map concat]; [rewrite app_nil_r; apply split_on_none, H|]. destruct b.
  - change (T "/." ++ concat (map (fun b : bool => if b then T "/." else T "/") bs)) with ("/"%char :: (T "." ++ concat (map (fun b : bool => if b then T "/." else T "/") bs))). rewrite split_on_app by exact H. f_equal. apply IH. intros [X|[]]. discriminate.
  - change (T "/" ++ concat (map (fun b : bool => if b then T "/." else T "/") bs)) with ("/"%char :: ([] ++ concat (map (fun b : bool => if b then T "/." else T "/") bs))). rewrite split_on_app by exact H. f_equal. apply IH. intros [].
Qed.
Lemma kept_tail (bs : list bool) : filter kept_part (map (fun b : bool => if b then T "." else []) bs) = [].
Proof. induction bs as [|[|] bs IH]; cbn [map filter]; [reflexivity| |]; exact IH. Qed.
Lemma unkept_tail ps : filter kept_part ps = [] -> exists bs : list bool, ps = map (fun b : bool => if b then T "." else []) bs.
Proof.
  induction ps as [|p ps IH]; intros H; [exists []; reflexivity|]. cbn [filter] in H. destruct (kept_part p) eqn:K; [discriminate|]. destruct (IH H) as [bs ->]. unfold kept_part in K. destruct p as [|c p].
  - exists (false :: bs). reflexivity.
  - cbn [is_nil negb andb] in K. apply negb_false_iff, text_eqb_eq in K. exists (true :: bs). cbn [map]. rewrite K. reflexivity.
Qed.
Lemma component_iff value n : component value = Some n <-> reads_as value n.
Proof.
  unfold component, reads_as. split.
  - destruct (starts_with (T "/") value) eqn:Es; [discriminate|]. destruct (text_eqb (hd [] (split_on "/" value)) (T ".")) eqn:Eh; [discriminate|].
    pose proof (join_split "/" value) as J. pose proof (split_on_pieces "/" value) as P. destruct (split_on "/" value) as [|a ps] eqn:Esp; [destruct (split_on_nonnil _ _ Esp)|]. cbn [hd] in Eh.
    destruct (is_nil a) eqn:Ea. { destruct a; [|discriminate]. destruct ps as [|b ps]; [discriminate|]. rewrite <- J in Es. cbn in Es. discriminate. }
    assert (Na : a <> []) by (intros ->; discriminate).
    assert (Ka : kept_part a = true). { unfold kept_part. rewrite Eh. destruct a; [congruence|reflexivity]. }
    cbn [filter]. rewrite Ka. destruct (filter kept_part ps) eqn:Ef; [|discriminate]. destruct (text_eqb a (T "..")) eqn:E2; [discriminate|]. intros [= <-]. inversion P as [|? ? P1 P2]; subst.
    split; [split; [exact Na|split; [apply text_eqb_neq, Eh|split; [apply text_eqb_neq, E2|exact P1]]]|]. apply unkept_tail in Ef as [bs ->]. exists bs.
    clear. revert a. induction bs as [|b bs IH]; intros a; [cbn; rewrite app_nil_r; reflexivity|].
    cbn [map concat]. destruct b.
    + change (join ["/"%char] (a :: T "." :: map (fun b : bool => if b then T "." else []) bs)) with (a ++ ["/"%char] ++ join ["/"%char] (T "." :: map (fun b : bool => if b then T "." else []) bs)). rewrite IH. reflexivity.
    + change (join ["/"%char] (a :: [] :: map (fun b : bool => if b then T "." else []) bs)) with (a ++ ["/"%char] ++ join ["/"%char] ([] :: map (fun b : bool => if b then T "." else []) bs)). rewrite IH. reflexivity.
  - intros ((N1 & N2 & N3 & N4) & bs & ->). destruct n as [|c n]; [congruence|].
    replace (starts_with (T "/") ((c :: n) ++ _)) with false.
    2:{ symmetry. cbn [app starts_with T list_ascii_of_string]. rewrite andb_true_r. apply Ascii.eqb_neq. intros E. apply N4. left. symmetry. exact E. }
    rewrite split_tail by exact N4. cbn [hd]. replace (text_eqb (c :: n) (T ".")) with false by (symmetry; apply text_eqb_neq; exact N2).
    cbn [filter]. rewrite kept_tail. assert (K : kept_part (c :: n) = true). { unfold kept_part. cbn [is_nil negb andb]. apply negb_true_iff, text_eqb_neq, N2. }
    rewrite K. replace (text_eqb (c :: n) (T "..")) with false by (symmetry; apply text_eqb_neq; exact N3). reflexivity.
Qed.
Lemma component_plain n : plain_name n -> component n = Some n.
Proof. intros H. apply component_iff. split; [exact H|]. exists []. cbn. rewrite app_nil_r. reflexivity. Qed.
Lemma component_sound v n : component v = Some n -> plain_name n.
Proof. intros H. apply component_iff in H. apply H. Qed.
Lemma component_slash v n : component v = Some n -> has_slash v = false -> v = n.
Proof.
  intros H S. apply component_iff in H as (_ & bs & ->). apply no_slash_in in S. destruct bs as [|[|] bs]; [cbn; apply app_nil_r| |]; exfalso; apply S, in_app_iff; right; left; reflexivity.
Qed.

(** ** frames *)
Lemma marker_not v : ignore_file v <> v.
Proof. intros E. apply (f_equal (@length ascii)) in E. unfold ignore_file in E. rewrite app_length in E. cbn in E. lia. Qed.
Lemma marker_inj v w : ignore_file v = ignore_file w -> v = w.
Proof. intros E. apply app_inv_head in E. exact E. Qed.
Lemma marker_unlisted v : unlisted_name (ignore_file v).
Proof. exists (T "ignore" ++ v). left. reflexivity. Qed.
Lemma apart_two n k m c p : apart [n; k] (m :: c :: p) <-> m <> n \/ c <> k.
Proof.
  unfold apart. rewrite !under_cons. split.
  - intros [A _]. destruct (text_eqb_spec m n) as [->|?]; [|auto]. destruct (text_eqb_spec c k) as [->|?]; [|auto]. exfalso. apply A. auto using under_nil.
  - intros H. split; intros (-> & -> & _); destruct H; congruence.
Qed.
Lemma not_apart_short n k m : ~ apart [n; k] [] /\ (m = n -> ~ apart [n; k] [m]).
Proof. split; [intros [_ H]; apply H, under_nil|]. intros -> [_ H]. apply H, under_cons. auto using under_nil. Qed.
Lemma touches_refl ps s : touches ps s s.
Proof. intros q _. reflexivity. Qed.
Lemma touches_trans ps s1 s2 s3 : touches ps s1 s2 -> touches ps s2 s3 -> touches ps s1 s3.
Proof. intros A B q H. rewrite B, A by exact H. reflexivity. Qed.
Lemma touches_more ps qs s s' : touches ps s s' -> (forall p, In p ps -> In p qs) -> touches qs s s'.
Proof. intros A H q Hq. apply A. auto. Qed.
Lemma touches_with s n fs' k ks : (forall c p, ~ In c (k :: ks) -> get (c :: p) (Dir fs') = look s (n :: c :: p)) -> touches (map (fun c => [n; c]) (k :: ks)) s (with_family s n fs').
Proof.
  intros H q Hq. destruct q as [|m q]; [destruct (proj1 (not_apart_short n k n)); apply Hq; left; reflexivity|].
  destruct (text_eqb_spec m n) as [->|Nm]; [|apply look_with_other, Nm]. destruct q as [|c q]; [destruct (proj2 (not_apart_short n k n) eq_refl); apply Hq; left; reflexivity|].
  rewrite look_with. apply H. intros X. assert (A : apart [n; c] (n :: c :: q)). { apply Hq. apply in_map_iff. exists c. auto. } apply apart_two in A. destruct A; congruence.
Qed.
Lemma touches_family s n fs fs' k ks : family s n = Some fs -> (forall c, ~ In c (k :: ks) -> aget c fs' = aget c fs) -> touches (map (fun c => [n; c]) (k :: ks)) s (with_family s n fs').
Proof. intros E H. apply touches_with. intros c p Hc. rewrite (look_in s n fs _ E). cbn [get]. rewrite (H c Hc). reflexivity. Qed.
(** versions apart from the marker of one are as before *)
Lemma touches_marker n v s s' : touches [[n; ignore_file v]] s s' ->
  (forall m w, (m, w) <> (n, v) -> (shown s' m w <-> shown s m w) /\ (hidden s' m w <-> hidden s m w)) /\
  (forall m w, ~ unlisted_name w -> forall p, look s' (m :: w :: p) = look s (m :: w :: p)).
Proof.
  intros H. assert (L : forall m w, ~ unlisted_name w -> forall p, look s' (m :: w :: p) = look s (m :: w :: p)).
  { intros m w Hw p. apply H. intros q [<-|[]]. apply apart_two. right. intros ->. apply Hw, marker_unlisted. }
  split; [|exact L]. intros m w Nn. assert (Hh : hidden s' m w <-> hidden s m w).
  { unfold hidden. rewrite H; [reflexivity|]. intros q [<-|[]]. apply apart_two. destruct (text_eqb_spec m n) as [->|?]; [|auto]. right. intros E. apply marker_inj in E. congruence. }
  split; [|exact Hh]. unfold shown. rewrite Hh. split; intros (A & B & C); (split; [|auto]); unfold has_version in *; [rewrite <- L by exact B|rewrite L by exact B]; exact A.
Qed.
Lemma touches_has n v s s' w : touches [[n; ignore_file v]] s s' -> w <> ignore_file v -> (has_version s' n w <-> has_version s n w).
Proof. intros H Hw. unfold has_version. rewrite H; [reflexivity|]. intros q [<-|[]]. apply apart_two. auto. Qed.

Section Io.
Variable io : nat -> bool.
Lemma make_family_spec s n k s' fs : make_family io s n k = Some (s', fs) -> family s' n = Some fs /\ ((s' = s /\ family s n = Some fs) \/ (s' = with_family s n [] /\ fs = [] /\ family s n = None)).
Proof.
  unfold make_family. destruct (io k); [discriminate|]. unfold family at 2 3. destruct (aget n (rows s)) as [[c|t| |gs]|] eqn:G; try discriminate; intros [= <- <-].
  - unfold family. rewrite G. auto.
  - rewrite family_with. auto.
Qed.
Lemma empty_touches s n k : family s n = None -> touches [[n; k]] s (with_family s n []).
Proof. intros E. apply (touches_with s n [] k []). intros c p _. cbn [get aget]. rewrite (look_none s n c p E). reflexivity. Qed.
Lemma ignore_spec ro name version allow s k r s' n : ignore_package io ro name (Some version) allow s k = (r, s') -> reads_as name n -> touches [[n; ignore_file version]] s s' /\
  match r with
  | Failed => True
  | Done z => (z = -1 /\ s' = s /\ allow = false /\ (forall v, reads_as version v -> ~ has_version s n v)
     \/ z = 0 /\ plain_name version /\ (allow = true \/ has_version s n version) /\ s' = s /\ look s [n; ignore_file version] <> None
     \/ z = 1 /\ plain_name version /\ (allow = true \/ has_version s n version) /\ look s [n; ignore_file version] = None /\ hidden s' n version)%Z
  end.
Proof.
  intros H Hn. apply component_iff in Hn. unfold ignore_package, ignore_at in H. destruct ro; [injection H as <- <-; auto using touches_refl|].
  destruct (component version) as [v|] eqn:Ev; [|injection H as <- <-; auto using touches_refl]. rewrite Hn in H.
  destruct (negb allow && negb (version_dir s n v)) eqn:Ea.
  { injection H as <- <-. split; [apply touches_refl|]. left. apply andb_true_iff in Ea as [A B]. apply negb_true_iff in A, B. apply version_dir_false in B.
    repeat split; auto. intros w Hw. apply component_iff in Hw. assert (w = v) by congruence. subst w. exact B. }
  destruct (make_family io s n k) as [[s1 fs]|] eqn:Em; [|injection H as <- <-; auto using touches_refl]. apply make_family_spec in Em as [F D].
  assert (T1 : touches [[n; ignore_file version]] s s1) by (destruct D as [[-> _]|(-> & _ & E)]; auto using touches_refl, empty_touches).
  destruct (has_slash version) eqn:Es; [injection H as <- <-; auto|]. pose proof (component_slash _ _ Ev Es) as <-.
  assert (Ok : allow = true \/ has_version s n version). { destruct allow; [auto|]. right. apply version_dir_iff. destruct (version_dir s n version); [reflexivity|discriminate]. }
  pose proof (component_sound _ _ Ev) as Pl. destruct (aget (marker version) fs) as [x|] eqn:Eg.
  - injection H as <- <-. destruct D as [[-> D]|(_ & -> & _)]; [|discriminate]. split; [exact T1|]. right. left. split; [reflexivity|split; [exact Pl|split; [exact Ok|split; [reflexivity|]]]]. rewrite (look_in s n fs _ D). cbn [get]. change (ignore_file version) with (marker version). rewrite Eg. discriminate.
  - destruct (io (S k)); injection H as <- <-; [auto|]. split.
    + eapply touches_trans; [exact T1|]. apply (touches_family s1 n fs _ (ignore_file version) [] F). intros c Hc. apply aget_put_other. intros ->. apply Hc. left. reflexivity.
    + right. right. split; [reflexivity|split; [exact Pl|split; [exact Ok|split]]].
      * destruct D as [[-> D]|(_ & _ & D)]; [|apply look_none, D]. rewrite (look_in s n fs _ D). cbn [get]. change (ignore_file version) with (marker version). rewrite Eg. reflexivity.
      * exists []. rewrite look_with. cbn [get]. change (ignore_file version) with (marker version). rewrite aget_put_same. reflexivity.
Qed.
Lemma drop_spec s n v k b s' : drop_marker io s n v k = Some (b, s') -> plain_name v -> touches [[n; ignore_file v]] s s' /\ look s' [n; ignore_file v] = None /\ (b = true <-> look s [n; ignore_file v] <> None) /\ (b = false -> s' = s).
Proof.
  unfold drop_marker. intros H Pl. rewrite (component_plain v Pl) in H. destruct (family s n) as [fs|] eqn:F.
  - rewrite (look_in s n fs _ F). cbn [get]. change (ignore_file v) with (marker v). destruct (aget (marker v) fs) as [[c|t| |gs]|] eqn:G; try discriminate.
    4:{ injection H as <- <-. rewrite (look_in s n fs _ F). cbn [get]. rewrite G. repeat split; auto using touches_refl; congruence. }
    all: destruct (has_slash v || io k); [discriminate|]; injection H as <- <-; rewrite look_with; cbn [get]; rewrite aget_del_same; repeat split; try congruence;
      apply (touches_family s n fs _ (marker v) [] F); intros c' Hc; apply aget_del_other; intros ->; apply Hc; left; reflexivity.
  - injection H as <- <-. rewrite (look_none s n _ [] F). repeat split; auto using touches_refl; congruence.
Qed.
Lemma unignore_spec ro name version s k r s' n : unignore_package io ro name (Some version) s k = (r, s') -> reads_as name n ->
  match r with
  | Failed => s' = s
  | Done z => exists v, reads_as version v /\ touches [[n; ignore_file v]] s s' /\ ~ hidden s' n v /\
      (z = -1 <-> ~ has_version s n v)%Z /\ (z = 0 <-> has_version s n v /\ look s [n; ignore_file v] = None)%Z /\ (z = 1 <-> has_version s n v /\ look s [n; ignore_file v] <> None)%Z /\ (z = -1 \/ z = 0 \/ z = 1)%Z
  end.
Proof.
  intros H Hn. apply component_iff in Hn. unfold unignore_package in H. destruct ro; [injection H as <- <-; auto|]. destruct (component version) as [v|] eqn:Ev; [|injection H as <- <-; auto]. rewrite Hn in H.
  destruct (drop_marker io s n version k) as [[b s1]|] eqn:D; [|injection H as <- <-; auto]. injection H as <- <-. exists v. split; [apply component_iff, Ev|].
  assert (X : touches [[n; ignore_file v]] s s1 /\ look s1 [n; ignore_file v] = None /\ (b = true <-> look s [n; ignore_file v] <> None)).
  { destruct (has_slash version) eqn:Es.
    - unfold drop_marker in D. destruct (family s n) as [fs|] eqn:F.
      + rewrite Ev in D. rewrite (look_in s n fs _ F). cbn [get]. change (ignore_file v) with (marker v). destruct (aget (marker v) fs) as [[c|t| |gs]|] eqn:G; try (rewrite Es in D); try discriminate. injection D as <- <-. rewrite (look_in s n fs _ F). cbn [get]. rewrite G. repeat split; auto using touches_refl; congruence.
      + injection D as <- <-. rewrite (look_none s n _ [] F). repeat split; auto using touches_refl; congruence.
    - pose proof (component_slash _ _ Ev Es) as <-. apply drop_spec in D; [|apply (component_sound _ _ Ev)]. tauto. }
  destruct X as (X1 & X2 & X3). split; [exact X1|]. split; [intros [c Hc]; congruence|].
  assert (Y : version_dir s1 n v = true <-> has_version s n v) by (rewrite version_dir_iff; apply (touches_has n v s s1 v X1); intros E; apply (marker_not v); congruence).
  destruct (version_dir s1 n v) eqn:V.
  - assert (Hv : has_version s n v) by tauto. destruct (look s [n; ignore_file v]) as [x|] eqn:L.
    + assert (b = true) as -> by (apply X3; discriminate). repeat split; intros; try discriminate; try tauto; try lia; destruct H; congruence.
    + assert (b = false) as -> by (destruct b; [exfalso; apply (proj1 X3 eq_refl); reflexivity|reflexivity]). repeat split; intros; try discriminate; try tauto; try lia; destruct H; congruence.
  - assert (Hv : ~ has_version s n v) by (rewrite <- Y; discriminate). repeat split; intros; try discriminate; try tauto; lia.
Qed.
End Io.
