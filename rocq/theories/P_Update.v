(** C276-C285: replacing the program by a released one. *)
From Verif Require Import Base Base_lemmas Maps Range_model Files_model Files_spec Files_proofs Update_spec Update_model Update_proofs Update_more Update_main.
From Verif Require Bundle_model Try_model Try_spec Try_more Bind_model Version_model.
From Coq Require Import Lia.
Open Scope string_scope. Open Scope list_scope.

(** ** A release, a disk and a system *)
Definition sum_a : text := repeat "a"%char 64.
Definition triple : text := T "x86_64-unknown-linux-gnu".
Definition rows0 : list (text * text) := [(sum_a, T "rez-next-aarch64-apple-darwin.tar.gz")].
Definition sums0 : text := text_of (map (fun r => row (fst r) (snd r)) rows0 ++ row sum_a (archive_of triple) :: []).
Definition release (v : text) (url : text) : option text :=
  if text_eqb url (asset_url v (archive_of triple)) then Some (T "BODY") else if text_eqb url (sums_url v) then Some sums0
  else if text_eqb url api_url then Some (text_of [T "{"; T "  " ++ tag_key ++ T ": " ++ quoted (T "v" ++ v) ++ T ","; T "}"]) else None.
Definition files0 : list (text * text) := [(T "rez-next", T "NEW"); (T "rez", T "NEW REZ")].
Definition world_of (v : text) (rename : bool) : world :=
  mkWorld (T "linux") (T "x86_64") None None (text_eqb (T "curl")) (release v) (fun c => if text_eqb c (T "BODY") then sum_a else []) (fun c => if text_eqb c (T "BODY") then Some (flat_files files0) else None)
    (Some [T "usr"; T "rez-next"]) (fun _ _ => rename) (T "0.3.6") [T "tmp"].
Definition disk_with (tmp : list (text * node)) : node :=
  Dir [(T "tmp", Dir tmp); (T "home", Dir [(T "mine", File (T "work"))]); (T "usr", Dir [(T "rez-next", File (T "OLD")); (T "rez", File (T "OLD REZ"))])].
Definition disk0 : node := disk_with [].
Definition ask (v : text) : args := mkArgs (Some v) false false.
Definition exe0 : path := [T "usr"; T "rez-next"].
Lemma disk0_tidy : tidy disk0.
Proof. unfold disk0, disk_with. cbn. repeat (constructor || split || (intros K; cbn in K; repeat (destruct K as [K|K]; [discriminate|]); exact K)). Qed.
Lemma apart_exe v e : u_exe (world_of v true) = Some e -> apart (temp_dir [T "tmp"] v) e.
Proof. intros [= <-]. split; intros [r E]; discriminate E. Qed.

(** ** C276: what is installed was published *)
Theorem C276_verified_partial : forall w a x v x', execute w a x = (Updated v, x') -> tidy x -> plain_version v -> absent (temp_dir (u_tmp w) v) x -> (forall e, u_exe w = Some e -> apart (temp_dir (u_tmp w) v) e) ->
  exists t body sums g fs p c e, target w = Some t /\ u_get w (asset_url v (archive_of t)) = Some body /\ u_get w (sums_url v) = Some sums /\ in_sums sums g (archive_of t) /\ u_sha w body = map to_lower g /\
    u_untar w body = Some fs /\ In (p, c) fs /\ program_name (last p []) /\ u_exe w = Some e /\ get e x' = Some (File c).
Proof. exact updated_verified. Qed.
Example C276_example : exists x', execute (world_of (T "0.4.0") true) (ask (T "v0.4.0")) disk0 = (Updated (T "0.4.0"), x') /\ get exe0 x' = Some (File (T "NEW")) /\ tidy disk0 /\ plain_version (T "0.4.0") /\
  absent (temp_dir [T "tmp"] (T "0.4.0")) disk0 /\ forall e, u_exe (world_of (T "0.4.0") true) = Some e -> apart (temp_dir [T "tmp"] (T "0.4.0")) e.
Proof.
  eexists. split; [vm_compute; reflexivity|]. split; [vm_compute; reflexivity|]. split; [exact disk0_tidy|]. split; [intros H; cbn in H; repeat (destruct H as [H|H]; [discriminate|]); exact H|]. split; [reflexivity|].
  intros e H. exact (apart_exe (T "0.4.0") e H).
Qed.
(** a file that somebody put there before is installed, although the archive is the published one and has the program *)
Definition planted : node := disk_with [(T "rez-next-update-0.4.0", Dir [(T "a", Dir [(T "rez-next", File (T "EVIL"))])])].
Theorem C276_planted_refuted : exists w a x v x' e, execute w a x = (Updated v, x') /\ tidy x /\ plain_version v /\ u_exe w = Some e /\ get e x' = Some (File (T "EVIL")) /\
  forall t body fs p c, target w = Some t -> u_get w (asset_url v (archive_of t)) = Some body -> u_untar w body = Some fs -> In (p, c) fs -> c <> T "EVIL".
Proof.
  exists (world_of (T "0.4.0") true), (ask (T "0.4.0")), planted, (T "0.4.0"). eexists. exists exe0. split; [vm_compute; reflexivity|]. split.
  - unfold planted, disk_with. cbn. repeat (constructor || split || (intros K; cbn in K; repeat (destruct K as [K|K]; [discriminate|]); exact K)).
  - split; [intros H; cbn in H; repeat (destruct H as [H|H]; [discriminate|]); exact H|]. split; [reflexivity|]. split; [vm_compute; reflexivity|]. intros t body fs p c TT G U I.
    assert (TE : target (world_of (T "0.4.0") true) = Some triple) by reflexivity. assert (T3 : t = triple) by congruence. subst t. assert (GE : u_get (world_of (T "0.4.0") true) (asset_url (T "0.4.0") (archive_of triple)) = Some (T "BODY")) by reflexivity.
    assert (BE : body = T "BODY") by congruence. subst body. assert (UE : u_untar (world_of (T "0.4.0") true) (T "BODY") = Some (flat_files files0)) by reflexivity. assert (FE : fs = flat_files files0) by congruence. subst fs. destruct I as [I|[I|[]]]; intros ->; discriminate I.
Qed.
Print Assumptions C276_verified_partial.
Print Assumptions C276_planted_refuted.

(** ** C277: a failed update leaves everything but its own directory *)
Theorem C277_failed_partial : forall w a x e x' q, execute w a x = (Failed e, x') -> (forall v, wanted w a = Some v -> plain_version v /\ apart (temp_dir (u_tmp w) v) q) -> get q x' = get q x.
Proof. intros w a x e x' q H P. apply (execute_frame w a x (Failed e) x' q H P). left. exact I. Qed.
Example C277_example : exists x', execute (world_of (T "0.4.0") false) (ask (T "0.4.0")) disk0 = (Failed NotReplaced, x') /\ get exe0 x' = Some (File (T "OLD")) /\
  forall v, wanted (world_of (T "0.4.0") false) (ask (T "0.4.0")) = Some v -> plain_version v /\ apart (temp_dir [T "tmp"] v) exe0.
Proof.
  eexists. split; [vm_compute; reflexivity|]. split; [vm_compute; reflexivity|]. intros v K. assert (E : wanted (world_of (T "0.4.0") false) (ask (T "0.4.0")) = Some (T "0.4.0")) by reflexivity. assert (F : v = T "0.4.0") by congruence. subst v.
  split; [intros H; cbn in H; repeat (destruct H as [H|H]; [discriminate|]); exact H|]. split; intros [r F]; discriminate F.
Qed.
(** a version that is a path makes it remove another directory *)
Theorem C277_path_refuted : exists w a x e x', execute w a x = (Failed e, x') /\ dir_at [T "home"] x /\ get [T "home"; T "mine"] x = Some (File (T "work")) /\ absent [T "home"] x'.
Proof.
  exists (world_of (T "0.4.0") true), (ask (T "1/../../home")), disk0, NoArchive. eexists. split; [vm_compute; reflexivity|]. split; [eexists; reflexivity|]. split; vm_compute; reflexivity.
Qed.
Print Assumptions C277_failed_partial.
Print Assumptions C277_path_refuted.

(** ** C278: an update changes the program and nothing else *)
Theorem C278_frame_partial : forall w a x r x' q, execute w a x = (r, x') -> (forall v, wanted w a = Some v -> plain_version v /\ apart (temp_dir (u_tmp w) v) q) -> (forall e, u_exe w = Some e -> apart e q) -> get q x' = get q x.
Proof. intros w a x r x' q H P A. apply (execute_frame w a x r x' q H P). right. exact A. Qed.
Theorem C278_clean_partial : forall w a x r x' v, execute w a x = (r, x') -> wanted w a = Some v -> plain_version v -> absent (temp_dir (u_tmp w) v) x -> r <> Failed NoSelf -> r <> Failed NotReplaced ->
  (forall e, u_exe w = Some e -> apart (temp_dir (u_tmp w) v) e) -> absent (temp_dir (u_tmp w) v) x'.
Proof. exact execute_clean. Qed.
Example C278_example : exists x', execute (world_of (T "0.4.0") true) (ask (T "0.4.0")) disk0 = (Updated (T "0.4.0"), x') /\ get [T "usr"; T "rez"] x' = Some (File (T "OLD REZ")) /\ absent (temp_dir [T "tmp"] (T "0.4.0")) x'.
Proof. eexists. split; [vm_compute; reflexivity|]. split; vm_compute; reflexivity. Qed.
(** whenever the program could not be replaced the directory stays *)
Theorem C278_left_refuted : (forall w a x x' v, execute w a x = (Failed NotReplaced, x') -> wanted w a = Some v -> plain_version v -> ~ absent (temp_dir (u_tmp w) v) x') /\
  exists w a x x' v, execute w a x = (Failed NotReplaced, x') /\ wanted w a = Some v /\ plain_version v /\ absent (temp_dir (u_tmp w) v) x.
Proof.
  split.
  - intros w a x x' v H W V B. destruct (not_replaced_left _ _ _ _ _ H W V) as [y E]. unfold absent in B. congruence.
  - exists (world_of (T "0.4.0") false), (ask (T "0.4.0")), disk0. eexists. exists (T "0.4.0"). split; [vm_compute; reflexivity|]. split; [reflexivity|]. split; [intros H; cbn in H; repeat (destruct H as [H|H]; [discriminate|]); exact H|reflexivity].
Qed.
(** the other program of the archive is not installed *)
Theorem C278_other_refuted : exists w a x x' v t body fs, execute w a x = (Updated v, x') /\ target w = Some t /\ u_get w (asset_url v (archive_of t)) = Some body /\ u_untar w body = Some fs /\ In ([T "rez"], T "NEW REZ") fs /\
  u_exe w = Some [T "usr"; T "rez-next"] /\ get [T "usr"; T "rez"] x = Some (File (T "OLD REZ")) /\ get [T "usr"; T "rez"] x' = Some (File (T "OLD REZ")).
Proof.
  exists (world_of (T "0.4.0") true), (ask (T "0.4.0")), disk0. eexists. exists (T "0.4.0"), triple, (T "BODY"), (flat_files files0). split; [vm_compute; reflexivity|]. split; [reflexivity|]. split; [reflexivity|]. split; [reflexivity|]. split; [right; now left|].
  split; [reflexivity|]. split; vm_compute; reflexivity.
Qed.
Print Assumptions C278_frame_partial.
Print Assumptions C278_clean_partial.
Print Assumptions C278_left_refuted.
Print Assumptions C278_other_refuted.

(** ** C279: only looking *)
Theorem C279_check_partial : forall w a x, a_check a = true -> snd (execute w a x) = x /\
  (u_has w (T "curl") = true \/ u_has w (T "wget") = true -> forall v, wanted w a = Some v -> (fst (execute w a x) = UpToDate <-> v = u_current w) /\ (fst (execute w a x) = Available v <-> v <> u_current w)) /\
  (forall v, fst (execute w a x) = Available v -> wanted w a = Some v).
Proof.
  intros w a x C. unfold execute. destruct (u_has w (T "curl") || u_has w (T "wget")) eqn:H.
  - destruct (wanted w a) as [v|]; [|split; [reflexivity|split; [intros _ v [=]|intros v [=]]]]. rewrite C. split; [reflexivity|]. cbn [fst]. split.
    + intros _ u [= <-]. destruct (text_eqb v (u_current w)) eqn:E; [apply text_eqb_eq in E|assert (N : v <> u_current w) by (intros K; rewrite K, text_eqb_refl in E; discriminate)]; (split; split; intros K; try congruence; try reflexivity; try discriminate).
    + intros u. destruct (text_eqb v (u_current w)); [intros [=]|]. intros [= <-]. reflexivity.
  - split; [reflexivity|]. split; [|intros v [=]]. intros [K|K]; rewrite K in H; cbn in H; [discriminate|]. rewrite orb_true_r in H. discriminate.
Qed.
Example C279_example : execute (world_of (T "0.4.0") true) (mkArgs None true false) disk0 = (Available (T "0.4.0"), disk0) /\ execute (world_of (T "0.3.6") true) (mkArgs None true false) disk0 = (UpToDate, disk0).
Proof. split; vm_compute; reflexivity. Qed.
(** an older release is called an update *)
Theorem C279_older_refuted : exists w a x v, execute w a x = (Available v, x) /\ a_version a = None /\ v = T "0.3.5" /\ u_current w = T "0.3.6".
Proof. exists (world_of (T "0.3.5") true), (mkArgs None true false), disk0, (T "0.3.5"). split; [vm_compute; reflexivity|]. repeat split. Qed.
Print Assumptions C279_check_partial.
Print Assumptions C279_older_refuted.

(** ** C280: the version that runs is not installed again unless forced *)
Theorem C280_same_partial : forall w a x, u_has w (T "curl") = true \/ u_has w (T "wget") = true -> wanted w a = Some (u_current w) -> a_check a = false -> a_force a = false -> execute w a x = (Already, x).
Proof.
  intros w a x H W C F. unfold execute. assert (E : u_has w (T "curl") || u_has w (T "wget") = true) by (destruct H as [-> | ->]; [reflexivity|apply orb_true_r]). rewrite E, W, C, text_eqb_refl, F. reflexivity.
Qed.
Theorem C280_updated : forall w a x v x', execute w a x = (Updated v, x') -> wanted w a = Some v /\ a_check a = false /\ (v <> u_current w \/ a_force a = true).
Proof. intros w a x v x' H. apply updated_inv in H as (A & B & C & _). auto. Qed.
Example C280_example : execute (world_of (T "0.3.6") true) (mkArgs None false false) disk0 = (Already, disk0) /\ fst (execute (world_of (T "0.3.6") true) (mkArgs None false true) disk0) = Updated (T "0.3.6").
Proof. split; vm_compute; reflexivity. Qed.
(** an older release is installed without being forced or asked for *)
Theorem C280_downgrade_refuted : exists w a x v x', execute w a x = (Updated v, x') /\ a_version a = None /\ a_force a = false /\ v = T "0.3.5" /\ u_current w = T "0.3.6" /\ get exe0 x' = Some (File (T "NEW")).
Proof. exists (world_of (T "0.3.5") true), (mkArgs None false false), disk0, (T "0.3.5"). eexists. split; [vm_compute; reflexivity|]. repeat (split; [reflexivity|]). vm_compute. reflexivity. Qed.
Print Assumptions C280_same_partial.
Print Assumptions C280_updated.
Print Assumptions C280_downgrade_refuted.

(** ** C281: the latest release *)
Lemma tag_calm c : tag_char c -> calm_char c.
Proof.
  intros (A & B & W). unfold calm_char, tag_edge. split; [|split; [exact W|intros ->; discriminate]]. rewrite !orb_false_iff. repeat split; apply Ascii.eqb_neq; try assumption. intros ->. discriminate.
Qed.
Theorem C281_latest_partial : forall w pre sp v post, u_get w api_url = Some (text_of (pre ++ (sp ++ quoted (T "tag_name") ++ T ": " ++ quoted (T "v" ++ v) ++ T ",") :: post)) ->
  Forall one_line pre -> (forall l, In l pre -> ~ Try_spec.part_of (quoted (T "tag_name")) l) -> Forall one_line post -> (forall c, In c sp -> c = " "%char) -> (forall c, In c v -> tag_char c) -> bare v -> latest w = Some v.
Proof.
  intros w pre sp v post G P K Q S V B. unfold latest. change latest_url with api_url. rewrite G. change (quoted (T "tag_name")) with tag_key in *. rewrite tag_name_pretty; try assumption.
  - rewrite strip_v_v. f_equal. apply strip_v_plain. destruct v; [exact I|exact B].
  - intros c [<-|I]; [repeat split; discriminate|]. now apply tag_calm, V.
  - discriminate.
Qed.
Example C281_example : latest (world_of (T "0.4.0") true) = Some (T "0.4.0") /\ bare (T "0.4.0") /\ (forall c, In c (T "0.4.0") -> tag_char c).
Proof. split; [vm_compute; reflexivity|]. split; [discriminate|]. intros c I. cbn in I. repeat (destruct I as [<-|I]; [repeat split; discriminate|]). destruct I. Qed.
(** an answer on one line gives something else *)
Theorem C281_one_line_refuted : exists w, u_get w api_url = Some (T "{" ++ quoted (T "tag_name") ++ T ":" ++ quoted (T "v0.4.0") ++ T "," ++ quoted (T "draft") ++ T ":false}") /\
  latest w <> Some (T "0.4.0") /\ latest w <> None.
Proof.
  exists (with_get (world_of (T "0.4.0") true) (fun u => if text_eqb u api_url then Some (T "{" ++ quoted (T "tag_name") ++ T ":" ++ quoted (T "v0.4.0") ++ T "," ++ quoted (T "draft") ++ T ":false}") else None)).
  split; [vm_compute; reflexivity|]. split; vm_compute; discriminate.
Qed.
Print Assumptions C281_latest_partial.
Print Assumptions C281_one_line_refuted.

(** ** C282: the sum of an archive *)
Theorem C282_sum_partial : forall name h pre post, Forall (fun r => Try_spec.is_word (fst r) /\ Try_spec.is_word (snd r) /\ snd r <> name) pre -> a_sum h -> Try_spec.is_word name -> Forall one_line post ->
  sum_for (text_of (map (fun r => row (fst r) (snd r)) pre ++ row h name :: post)) name = Some (map to_lower h).
Proof. exact sum_for_row. Qed.
Theorem C282_missing : forall name rows, Forall (fun r => Try_spec.is_word (fst r) /\ Try_spec.is_word (snd r) /\ snd r <> name) rows -> sum_for (text_of (map (fun r => row (fst r) (snd r)) rows)) name = None.
Proof. exact sum_for_missing. Qed.
Theorem C282_sound : forall sums name h, sum_for sums name = Some h -> exists g, in_sums sums g name /\ h = map to_lower g.
Proof. exact sum_for_sound. Qed.
Lemma words0 : Try_spec.is_word sum_a /\ Try_spec.is_word (archive_of triple) /\ Try_spec.is_word (T "rez-next-aarch64-apple-darwin.tar.gz") /\ a_sum sum_a.
Proof.
  assert (W : forall t : text, t <> [] -> forallb (fun c => negb (is_ws c)) t = true -> Try_spec.is_word t) by (intros t N F; split; [exact N|]; intros c I; rewrite forallb_forall in F; apply F in I; now destruct (is_ws c)).
  split; [apply W; [discriminate|reflexivity]|]. split; [apply W; [discriminate|reflexivity]|]. split; [apply W; [discriminate|reflexivity]|]. split; [reflexivity|]. intros c I. apply repeat_spec in I. subst c. cbn. tauto.
Qed.
Example C282_example : sum_for sums0 (archive_of triple) = Some sum_a /\ Forall (fun r => Try_spec.is_word (fst r) /\ Try_spec.is_word (snd r) /\ snd r <> archive_of triple) rows0 /\ a_sum sum_a /\ sum_for sums0 (T "other") = None.
Proof.
  destruct words0 as (A & B & C & D). split; [vm_compute; reflexivity|]. split; [constructor; [|constructor]; split; [exact A|]; split; [exact C|discriminate]|]. split; [exact D|vm_compute; reflexivity].
Qed.
(** a name marked as binary, as sum tools write it, is not found *)
Theorem C282_star_refuted : forall name h, a_sum h -> Try_spec.is_word name -> sum_for (text_of [h ++ T " *" ++ name]) name = None.
Proof.
  intros name h S N. assert (W : Try_spec.is_word (T "*" ++ name)) by (destruct N as [_ N]; split; [discriminate|]; intros c [<-|I]; [reflexivity|exact (N c I)]). pose proof (sum_word h S) as H.
  assert (E : Try_model.split_ws (h ++ T " *" ++ name) = [h; T "*" ++ name]) by (change (h ++ T " *" ++ name) with (h ++ " "%char :: (T "*" ++ name)); rewrite Try_more.split_ws_word by (try exact H; reflexivity); now rewrite Try_more.split_ws_last by exact W).
  unfold sum_for. rewrite text_lines.
  - cbn [sum_in]. rewrite E. destruct (text_eqb (T "*" ++ name) name) eqn:Q; [apply text_eqb_eq in Q; apply (f_equal (@length ascii)) in Q; cbn in Q; lia|reflexivity].
  - constructor; [|constructor]. split.
    + intros I. apply in_app_or in I as [I|I]; [destruct H as [_ H]; apply H in I; discriminate|]. destruct I as [I|I]; [discriminate|]. destruct W as [_ W]. apply W in I. discriminate.
    + intros r K. destruct N as [N1 N2]. destruct (exists_last N1) as (g & c & ->). rewrite !app_assoc in K. apply app_inj_tail in K as [_ ->]. assert (X : is_ws "013" = false) by (apply N2; apply in_or_app; right; now left). discriminate.
Qed.
(** the first line of the name counts, also if it is broken and a right one follows *)
Theorem C282_first_refuted : forall name g h, a_sum h -> Try_spec.is_word name -> Try_spec.is_word g -> length g <> 64 -> sum_for (text_of [row g name; row h name]) name = None.
Proof.
  intros name g h S N G L. unfold sum_for. rewrite text_lines by (constructor; [now apply row_line|constructor; [apply row_line; [now apply sum_word|exact N]|constructor]]). cbn [sum_in]. rewrite (row_words g name G N), text_eqb_refl.
  apply Nat.eqb_neq in L. rewrite L. reflexivity.
Qed.
Print Assumptions C282_sum_partial.
Print Assumptions C282_missing.
Print Assumptions C282_sound.
Print Assumptions C282_star_refuted.
Print Assumptions C282_first_refuted.

(** ** C283: which archive *)
Definition system (os arch : text) (ldd : option (text * text)) (rel : option text) : world :=
  mkWorld os arch ldd rel (fun _ => true) (fun _ => None) (fun c => c) (fun _ => None) None (fun _ _ => true) [] [].
Lemma mentions_iff p s : contains_text p (map to_lower s) = true <-> mentions p s.
Proof.
  rewrite Try_more.contains_part. split.
  - intros (a & b & E). apply Bind_text.map_split in E as (a' & r & -> & _ & E). apply Bind_text.map_split in E as (q & b' & -> & E & _). now exists a', q, b'.
  - intros (a & q & b & -> & <-). exists (map to_lower a), (map to_lower b). now rewrite !map_app.
Qed.
Definition id_of (d : text) : Prop := d = T "alpine" \/ d = T "void".
Theorem C283_target : forall w t, target w = Some t <-> known_arch (u_arch w) /\ ((u_os w = T "linux" /\ t = u_arch w ++ T "-unknown-linux-" ++ libc w) \/ (u_os w = T "macos" /\ t = u_arch w ++ T "-apple-darwin")).
Proof.
  intros w t. unfold target, known_arch. assert (K : mem_text (u_arch w) [T "x86_64"; T "aarch64"] = true <-> u_arch w = T "x86_64" \/ u_arch w = T "aarch64") by (rewrite mem_text_In; cbn [In]; intuition congruence).
  destruct (mem_text (u_arch w) _); [|split; [discriminate|intros [A _]; apply K in A; discriminate]]. destruct (text_eqb_spec (u_os w) (T "linux")) as [E|N].
  - split; [intros [= <-]; split; [now apply K|left; now split]|]. intros [_ [[_ ->]|[M _]]]; [reflexivity|rewrite E in M; discriminate].
  - destruct (text_eqb_spec (u_os w) (T "macos")) as [E|N']; [split; [intros [= <-]; split; [now apply K|right; now split]|]; intros [_ [[M _]|[_ ->]]]; [congruence|reflexivity]|split; [discriminate|]; intros [_ [[M _]|[M _]]]; congruence].
Qed.
Theorem C283_musl_partial : forall w, (libc w = T "musl" \/ libc w = T "gnu") /\
  ((exists out err, u_ldd w = Some (out, err) /\ (mentions (T "musl") out \/ mentions (T "musl") err)) -> libc w = T "musl") /\
  (forall pre d post, id_of d -> Forall one_line pre -> Forall one_line post -> u_release w = Some (text_of (pre ++ (T "ID=" ++ d) :: post)) \/ u_release w = Some (text_of (pre ++ (T "ID=" ++ quoted d) :: post)) -> libc w = T "musl") /\
  ((forall out err, u_ldd w = Some (out, err) -> ~ mentions (T "musl") out /\ ~ mentions (T "musl") err) -> (forall c, u_release w = Some c -> ~ Try_spec.part_of (T "alpine") c /\ ~ Try_spec.part_of (T "void") c) -> libc w = T "gnu").
Proof.
  intros w. unfold libc. split; [|split; [|split]].
  - destruct (match u_ldd w with Some _ => _ | None => _ end); [now left|]. destruct (match u_release w with Some _ => _ | None => _ end); [now left|now right].
  - intros (out & err & -> & M). assert (E : contains_text (T "musl") (map to_lower err) || contains_text (T "musl") (map to_lower out) = true) by (apply orb_true_iff; destruct M as [M|M]; [right|left]; now apply mentions_iff). now rewrite E.
  - intros pre d post D P Q R. destruct (match u_ldd w with Some _ => _ | None => _ end); [reflexivity|]. assert (K : forall l, l = T "ID=" ++ d \/ l = T "ID=" ++ quoted d -> one_line l /\ starts_with (T "ID=") l && mem_text (Bind_model.drop_both "034" (Bind_model.drop_prefixes (length l) (T "ID=") l)) [T "alpine"; T "void"] = true).
    { intros l L. destruct D as [-> | ->]; destruct L as [-> | ->]; (split; [split; [intros I; cbn in I; repeat (destruct I as [I|I]; [discriminate|]); exact I|intros r E; apply (f_equal (@rev ascii)) in E; rewrite (rev_app_distr r) in E; discriminate E]|vm_compute; reflexivity]). }
    assert (G : exists l, (l = T "ID=" ++ d \/ l = T "ID=" ++ quoted d) /\ u_release w = Some (text_of (pre ++ l :: post))) by (destruct R as [R|R]; [exists (T "ID=" ++ d)|exists (T "ID=" ++ quoted d)]; (split; [tauto|exact R])).
    destruct G as (l & L & ->). destruct (K l L) as [O E]. rewrite text_lines by (apply Forall_app; split; [exact P|constructor; [exact O|exact Q]]).
    match goal with |- (if ?b then _ else _) = _ => assert (H : b = true) end; [|now rewrite H]. apply existsb_exists. exists l. split; [apply in_or_app; right; now left|exact E].
  - intros L R. assert (E : match u_ldd w with Some (out, err) => contains_text (T "musl") (map to_lower err) || contains_text (T "musl") (map to_lower out) | None => false end = false).
    { destruct (u_ldd w) as [[out err]|]; [|reflexivity]. destruct (L out err eq_refl) as [A B]. apply orb_false_iff. split; apply not_true_iff_false; intros K; apply mentions_iff in K; tauto. }
    rewrite E. destruct (u_release w) as [c|]; [|reflexivity]. destruct (R c eq_refl) as [A B]. destruct (existsb _ _) eqn:X; [exfalso|reflexivity]. apply existsb_exists in X as (l & I & X). apply andb_true_iff in X as [_ X].
    apply file_line_part in I as [_ (a & b & E2)]. apply mem_text_In in X.
    assert (P : forall f s, exists u, s = u ++ Bind_model.drop_while f s) by (intros f s; induction s as [|ch s [u IH]]; [now exists []|]; cbn [Bind_model.drop_while]; destruct (f ch); [exists (ch :: u); cbn [app]; now rewrite <- IH|now exists []]).
    assert (P2 : forall f s, exists u, s = Bind_model.drop_end f s ++ u) by (intros f s; unfold Bind_model.drop_end; destruct (P f (rev s)) as [u U]; exists (rev u); rewrite <- rev_app_distr, <- U; now rewrite rev_involutive).
    assert (P3 : forall n x s, exists u, s = u ++ Bind_model.drop_prefixes n x s) by (intros n; induction n as [|n IH]; intros x s; cbn [Bind_model.drop_prefixes]; [now exists []|]; destruct (starts_with x s); [|now exists []]; destruct (IH x (skipn (length x) s)) as [u U]; exists (firstn (length x) s ++ u); rewrite <- app_assoc, <- U; now rewrite firstn_skipn).
    unfold Bind_model.drop_both in X. set (m := Bind_model.drop_prefixes (length l) (T "ID=") l) in X. destruct (P3 (length l) (T "ID=") l) as [u1 U1]. fold m in U1. destruct (P (Ascii.eqb "034") m) as [u2 U2]. destruct (P2 (Ascii.eqb "034") (Bind_model.drop_while (Ascii.eqb "034") m)) as [u3 U3].
    set (i := Bind_model.drop_end (Ascii.eqb "034") (Bind_model.drop_while (Ascii.eqb "034") m)) in *. assert (PC : Try_spec.part_of i c) by (exists (a ++ u1 ++ u2), (u3 ++ b); rewrite E2, U1, U2, U3; now rewrite <- !app_assoc).
    destruct X as [X|[X|[]]]; rewrite <- X in PC; tauto.
Qed.
Example C283_example : target (system (T "linux") (T "aarch64") None (Some (text_of [T "NAME=x"; T "ID=alpine"]))) = Some (T "aarch64-unknown-linux-musl") /\ target (system (T "macos") (T "aarch64") None None) = Some (T "aarch64-apple-darwin") /\
  target (system (T "freebsd") (T "x86_64") None None) = None /\ target (system (T "linux") (T "x86_64") (Some (T "ldd (GNU libc) 2.31", [])) (Some (text_of [T "ID=debian"]))) = Some (T "x86_64-unknown-linux-gnu").
Proof. repeat split; vm_compute; reflexivity. Qed.
(** single quotes, which the format of the file allows, hide the system *)
Theorem C283_quotes_refuted : exists w, u_release w = Some (text_of [T "ID='alpine'"]) /\ libc w = T "gnu".
Proof. exists (system (T "linux") (T "x86_64") None (Some (text_of [T "ID='alpine'"]))). split; vm_compute; reflexivity. Qed.
Print Assumptions C283_target.
Print Assumptions C283_musl_partial.
Print Assumptions C283_quotes_refuted.

(** ** C284: what an update depends on *)
Theorem C284_asked : forall w g a x v, a_version a = Some (T "v" ++ v) \/ a_version a = Some v -> bare v -> (forall t, target w = Some t -> g (asset_url v (archive_of t)) = u_get w (asset_url v (archive_of t))) -> g (sums_url v) = u_get w (sums_url v) ->
  execute (with_get w g) a x = execute w a x.
Proof.
  intros w g a x v V B A S. assert (E : exists u, a_version a = Some u /\ strip_v u = v) by (destruct V as [V|V]; [exists (T "v" ++ v); split; [exact V|rewrite strip_v_v]|exists v; split; [exact V|]]; apply strip_v_plain; destruct v; [exact I|exact B|exact I|exact B]).
  destruct E as (u & U & <-). apply (only_urls w g a x u U A S).
Qed.
Theorem C284_latest : forall w g a x, a_version a = None -> g api_url = u_get w api_url -> (forall t v, target w = Some t -> wanted w a = Some v -> g (asset_url v (archive_of t)) = u_get w (asset_url v (archive_of t))) ->
  (forall v, wanted w a = Some v -> g (sums_url v) = u_get w (sums_url v)) -> execute (with_get w g) a x = execute w a x.
Proof. exact only_latest. Qed.
Theorem C284_letter : forall w v c f x, execute w (mkArgs (Some (T "v" ++ v)) c f) x = execute w (mkArgs (Some v) c f) x.
Proof. reflexivity. Qed.
Example C284_example : exists g, g api_url <> release (T "0.4.0") api_url /\ execute (with_get (world_of (T "0.4.0") true) g) (ask (T "v0.4.0")) disk0 = execute (world_of (T "0.4.0") true) (ask (T "v0.4.0")) disk0.
Proof. exists (fun u => if text_eqb u api_url then None else release (T "0.4.0") u). split; [vm_compute; discriminate|]. vm_compute. reflexivity. Qed.
Print Assumptions C284_asked.
Print Assumptions C284_latest.
Print Assumptions C284_letter.

(** ** C285: when an update works *)
Theorem C285_works_partial : forall w a x v t body pre g post fs e c, u_has w (T "curl") || u_has w (T "wget") = true -> wanted w a = Some v -> a_check a = false -> v <> u_current w \/ a_force a = true -> target w = Some t ->
  tidy x -> plain_version v -> dir_at (u_tmp w) x -> absent (temp_dir (u_tmp w) v) x ->
  u_get w (asset_url v (archive_of t)) = Some body -> Forall (fun r => Try_spec.is_word (fst r) /\ Try_spec.is_word (snd r) /\ snd r <> archive_of t) pre -> a_sum g -> Try_spec.is_word (archive_of t) -> Forall one_line post ->
  u_get w (sums_url v) = Some (text_of (map (fun r => row (fst r) (snd r)) pre ++ row g (archive_of t) :: post)) -> u_sha w body = map to_lower g ->
  u_untar w body = Some (flat_files fs) -> last_of (T "rez-next") fs None = Some c -> ~ In (T "rez-next.exe") (map fst fs) ->
  u_exe w = Some e -> apart (temp_dir (u_tmp w) v) e -> (exists b, get e x = Some (File b)) -> u_rename w (temp_dir (u_tmp w) v ++ [T "rez-next"]) e = true ->
  exists x', execute w a x = (Updated v, x') /\ get e x' = Some (File c) /\ absent (temp_dir (u_tmp w) v) x'.
Proof. exact update_works. Qed.
Example C285_example : exists x', execute (world_of (T "0.4.0") true) (ask (T "0.4.0")) disk0 = (Updated (T "0.4.0"), x') /\ get exe0 x' = Some (File (T "NEW")) /\ absent (temp_dir [T "tmp"] (T "0.4.0")) x'.
Proof.
  destruct words0 as (A & B & C & D). apply (C285_works_partial (world_of (T "0.4.0") true) (ask (T "0.4.0")) disk0 (T "0.4.0") triple (T "BODY") rows0 sum_a [] files0 exe0 (T "NEW")); try reflexivity; try exact D; try exact B; try exact disk0_tidy.
  - left. discriminate.
  - intros H. cbn in H. repeat (destruct H as [H|H]; [discriminate|]). exact H.
  - eexists. reflexivity.
  - constructor; [|constructor]. split; [exact A|]. split; [exact C|discriminate].
  - constructor.
  - intros [H|[H|[]]]; discriminate H.
  - apply (apart_exe (T "0.4.0")). reflexivity.
  - eexists. reflexivity.
Qed.
(** it never works if a file cannot be renamed to the place of the program, as between two devices *)
Theorem C285_device_refuted : (forall w a x, (forall s e, u_rename w s e = false) -> forall v, fst (execute w a x) <> Updated v) /\ exists w a x, fst (execute w a x) = Failed NotReplaced /\ (forall s e, u_rename w s e = false).
Proof.
  split.
  - intros w a x R v H. destruct (execute w a x) as [r x'] eqn:E. cbn in H. subst r. unfold execute in E. destruct (_ || _); [|discriminate]. destruct (wanted w a) as [u|]; [|discriminate]. destruct (a_check a); [destruct (text_eqb _ _); discriminate|]. destruct (_ && _); [discriminate|].
    destruct (target w) as [t|]; [|discriminate]. destruct (enter _ _ x) as [[dir|] x1]; [|discriminate]. unfold fetch in E. destruct (u_get w _) as [body|]; [|discriminate]. destruct (Bind_model.write_file _ _ x1) as [x2|]; [|discriminate].
    destruct (u_get w _) as [sums|]; [|discriminate]. destruct (Bind_model.write_file _ _ x2) as [x3|]; [|discriminate]. destruct (sum_for _ _) as [h|]; [|discriminate]. destruct (text_eqb _ _); [|discriminate]. unfold install in E.
    destruct (u_untar w body) as [fs|]; [|discriminate]. destruct (unpack _ fs x3) as [[|] x4]; [|discriminate]. destruct (find_binary _ x4) as [src|]; [|discriminate]. destruct (u_exe w) as [e|]; [|discriminate].
    unfold replace in E. rewrite R in E. destruct (get src x4); discriminate.
  - exists (world_of (T "0.4.0") false), (ask (T "0.4.0")), disk0. split; [vm_compute; reflexivity|reflexivity].
Qed.
Print Assumptions C285_works_partial.
Print Assumptions C285_device_refuted.
