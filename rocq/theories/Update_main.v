From Verif Require Import Base Base_lemmas Maps Range_model Files_model Files_spec Files_proofs Update_spec Update_model Update_proofs Update_more.
From Verif Require Bundle_model Try_model Bind_model Bind_spec Bind_text Bind_disk Try_more Try_spec Range_text Rex_model.
From Coq Require Import Lia.
Open Scope string_scope. Open Scope list_scope.

(** ** What was installed *)
Lemma archive_not_program t : ~ program_name (archive_name t).
Proof.
  unfold program_name, archive_name. intros [H|H].
  - apply (f_equal (@length ascii)) in H. rewrite app_length in H. cbn in H. lia.
  - apply (f_equal (firstn 9)) in H. discriminate H.
Qed.
Lemma sums_not_program : ~ program_name sums_name.
Proof. intros [H|H]; discriminate H. Qed.
Lemma made_leaf p x x' q z : Bind_model.make_dirs p x = Some x' -> get p x = None -> get (p ++ q) x' = Some z -> no_dir z -> False.
Proof.
  unfold Bind_model.make_dirs. intros H E G N. rewrite E in H. rewrite (get_put_under _ _ q _ _ H) in G. destruct q; [cbn in G; injection G as <-; exact N|discriminate].
Qed.
Lemma make_tidy p x x' : tidy x -> Bind_model.make_dirs p x = Some x' -> tidy x'.
Proof. unfold Bind_model.make_dirs. intros X H. destruct (get p x) as [[]|]; try discriminate; [injection H as <-; exact X|]. refine (put_tidy p (Dir []) _ _ _ X H). apply tidy_dir. repeat constructor. Qed.
Lemma updated_verified w a x v x' : execute w a x = (Updated v, x') -> tidy x -> plain_version v -> absent (temp_dir (u_tmp w) v) x -> (forall e, u_exe w = Some e -> apart (temp_dir (u_tmp w) v) e) ->
  exists t body sums g fs p c e, target w = Some t /\ u_get w (asset_url v (archive_of t)) = Some body /\ u_get w (sums_url v) = Some sums /\ in_sums sums g (archive_of t) /\ u_sha w body = map to_lower g /\
    u_untar w body = Some fs /\ In (p, c) fs /\ program_name (last p []) /\ u_exe w = Some e /\ get e x' = Some (File c).
Proof.
  intros H X V B A. apply updated_inv in H as (_ & _ & _ & t & dir & x1 & TT & E & body & x2 & sums & x3 & h & fs & x4 & src & exe & y & x5 & G1 & W1 & G2 & W2 & S & Q & UT & U & F & X0 & Y & P & ->).
  rewrite (enter_plain _ _ _ V) in E. destruct (Bind_model.make_dirs (temp_dir (u_tmp w) v) x) as [x1'|] eqn:M; [|discriminate]. injection E as <- ->.
  pose proof (make_tidy _ _ _ X M) as T1. apply write_put in W1 as [W1 _]. apply write_put in W2 as [W2 _]. pose proof (put_tidy _ (File body) I _ _ T1 W1) as T2. pose proof (put_tidy _ (File sums) I _ _ T2 W2) as T3.
  pose proof (unpack_tidy _ _ _ _ _ T3 U) as T4. destruct (find_binary_some _ _ _ T4 F) as (r & z & -> & R & Y' & Z & N). rewrite Y' in Y. injection Y as <-.
  assert (K : exists p c, In (p, c) fs /\ temp_dir (u_tmp w) v ++ r = temp_dir (u_tmp w) v ++ p /\ z = File c).
  { destruct (unpack_leaf _ _ _ _ _ U _ _ Y' Z) as [K|K]; [exfalso|exact K]. destruct (put_leaf _ _ _ _ _ _ W2 K Z) as [K2|[K2 _]].
    - destruct (put_leaf _ _ _ _ _ _ W1 K2 Z) as [K1|[K1 _]]; [exact (made_leaf _ _ _ _ _ M B K1 Z)|]. apply app_inv_head in K1. subst r. exact (archive_not_program t N).
    - apply app_inv_head in K2. subst r. exact (sums_not_program N). }
  destruct K as (p & c & I & K & ->). apply app_inv_head in K. subst p. apply sum_for_sound in S as (g & S & ->).
  exists t, body, sums, g, fs, r, c, exe. repeat (split; [assumption|]). rewrite gone_apart by (apply A; exact X0). exact (get_put_same _ _ _ _ P).
Qed.

(** ** When it works *)
Definition flat_dir (y : node) : Prop := match y with Dir es => forall c z, aget c es = Some z -> no_dir z | _ => False end.
Lemma put_in_dir dir es n f x : get dir x = Some (Dir es) -> exists x', put (dir ++ [n]) f x = Some x' /\ get dir x' = Some (Dir (aput n f es)).
Proof.
  revert x. induction dir as [|c dir IH]; intros x G.
  - cbn in G. injection G as ->. cbn [app put]. eexists. split; reflexivity.
  - cbn [get] in G. destruct x as [| | |fs]; try discriminate. destruct (aget c fs) as [u|] eqn:A; [|discriminate]. destruct (IH u G) as (u' & P & Q). cbn [app put]. rewrite A, P. eexists. split; [reflexivity|].
    cbn [get]. rewrite aget_put_same. exact Q.
Qed.
Lemma write_in_dir dir es n c x : get dir x = Some (Dir es) -> flat_dir (Dir es) -> exists x' es', Bind_model.write_file (dir ++ [n]) c x = Some x' /\ get dir x' = Some (Dir es') /\ flat_dir (Dir es') /\
  aget n es' = Some (File c) /\ forall m, m <> n -> aget m es' = aget m es.
Proof.
  intros G F. destruct (put_in_dir dir es n (File c) x G) as (x' & P & Q). exists x', (aput n (File c) es). unfold Bind_model.write_file.
  assert (D : is_dir (dir ++ [n]) x = false).
  { apply not_dir_at. intros [fs E]. rewrite get_app, G in E. cbn [get] in E. destruct (aget n es) as [z|] eqn:A; [|discriminate]. injection E as ->. exact (F n _ A). }
  rewrite D. split; [exact P|]. split; [exact Q|]. split; [|split; [apply aget_put_same|intros m N; now rewrite aget_put_other]].
  intros m z A. destruct (list_eq_dec ascii_dec m n) as [->|N]; [rewrite aget_put_same in A; injection A as <-; exact I|rewrite aget_put_other in A by exact N; exact (F m z A)].
Qed.
Lemma unpack_flat dir fs : forall x es, get dir x = Some (Dir es) -> flat_dir (Dir es) -> exists x' es', unpack dir (flat_files fs) x = (true, x') /\ get dir x' = Some (Dir es') /\ flat_dir (Dir es') /\
  (forall n, ~ In n (map fst fs) -> aget n es' = aget n es) /\ (forall n, In n (map fst fs) -> exists c, last_of n fs None = Some c /\ aget n es' = Some (File c)).
Proof.
  induction fs as [|[m c] fs IH]; intros x es G F; cbn [flat_files map unpack fst snd].
  - exists x, es. split; [reflexivity|]. split; [exact G|]. split; [exact F|]. split; [reflexivity|intros n []].
  - destruct (write_in_dir dir es m c x G F) as (x1 & es1 & W & G1 & F1 & A & O). change (map (fun e : text * text => ([fst e], snd e)) fs) with (flat_files fs). rewrite W.
    destruct (IH x1 es1 G1 F1) as (x' & es' & U & G' & F' & N & Y). exists x', es'. split; [exact U|]. split; [exact G'|]. split; [exact F'|]. split.
    + intros n K. rewrite N by (intros J; apply K; now right). apply O. intros ->. apply K. now left.
    + intros n K. cbn [last_of]. assert (L : forall d, In n (map fst fs) -> last_of n fs d = last_of n fs None).
      { clear. induction fs as [|[a b] fs IH]; intros d J; [destruct J|]. cbn [last_of]. destruct (text_eqb a n) eqn:E; [reflexivity|]. apply IH. destruct J as [J|J]; [cbn in J; subst a; rewrite text_eqb_refl in E; discriminate|exact J]. }
      destruct (in_dec (list_eq_dec ascii_dec) n (map fst fs)) as [J|J]; [rewrite L by exact J; exact (Y n J)|]. destruct K as [<-|K]; [|destruct (J K)]. rewrite text_eqb_refl. exists c. split; [|rewrite N by exact J; exact A].
      clear -J. revert J. generalize (Some c). induction fs as [|[a b] fs IH]; intros d J; [reflexivity|]. cbn [last_of]. destruct (text_eqb a m) eqn:E; [apply text_eqb_eq in E; subst a; destruct J; now left|]. apply IH. intros K. apply J. now right.
Qed.
Lemma get_child dir es n x : get dir x = Some (Dir es) -> get (dir ++ [n]) x = aget n es.
Proof. intros G. rewrite get_app, G. cbn [get]. destruct (aget n es); reflexivity. Qed.
Lemma update_works w a x v t body pre g post fs e c : u_has w (T "curl") || u_has w (T "wget") = true -> wanted w a = Some v -> a_check a = false -> v <> u_current w \/ a_force a = true -> target w = Some t ->
  tidy x -> plain_version v -> dir_at (u_tmp w) x -> absent (temp_dir (u_tmp w) v) x ->
  u_get w (asset_url v (archive_of t)) = Some body -> Forall (fun r => Try_spec.is_word (fst r) /\ Try_spec.is_word (snd r) /\ snd r <> archive_of t) pre -> a_sum g -> Try_spec.is_word (archive_of t) -> Forall one_line post ->
  u_get w (sums_url v) = Some (text_of (map (fun r => row (fst r) (snd r)) pre ++ row g (archive_of t) :: post)) -> u_sha w body = map to_lower g ->
  u_untar w body = Some (flat_files fs) -> last_of (T "rez-next") fs None = Some c -> ~ In (T "rez-next.exe") (map fst fs) ->
  u_exe w = Some e -> apart (temp_dir (u_tmp w) v) e -> (exists b, get e x = Some (File b)) -> u_rename w (temp_dir (u_tmp w) v ++ [T "rez-next"]) e = true ->
  exists x', execute w a x = (Updated v, x') /\ get e x' = Some (File c) /\ absent (temp_dir (u_tmp w) v) x'.
Proof.
  intros HD WV CK FO TG X V TD AB G1 PR SG AW PO G2 SH UT LO NE EX AP (b & EB) RN. set (dir := temp_dir (u_tmp w) v) in *. unfold execute. rewrite HD, WV, CK.
  assert (C : text_eqb v (u_current w) && negb (a_force a) = false) by (destruct FO as [N| ->]; [destruct (text_eqb v (u_current w)) eqn:K; [apply text_eqb_eq in K; congruence|reflexivity]|apply andb_false_r]). rewrite C, TG.
  rewrite (enter_plain _ _ _ V). fold dir. unfold Bind_model.make_dirs. unfold absent in AB. rewrite AB. destruct TD as [es TD].
  destruct (put_in_dir (u_tmp w) es (T "rez-next-update-" ++ v) (Dir []) x TD) as (x1 & P1 & _). change (u_tmp w ++ [T "rez-next-update-" ++ v]) with dir in P1. rewrite P1.
  pose proof (get_put_same _ _ _ _ P1) as D1. assert (T1 : tidy x1) by (refine (put_tidy dir (Dir []) _ _ _ X P1); apply tidy_dir; repeat constructor).
  assert (F1 : flat_dir (Dir [])) by (intros ? ? [=]). unfold fetch. change (release_url v (archive_name t)) with (asset_url v (archive_of t)). rewrite G1.
  destruct (write_in_dir dir [] (archive_name t) body x1 D1 F1) as (x2 & es2 & W2 & D2 & F2 & A2 & O2). rewrite W2. change (release_url v sums_name) with (sums_url v). rewrite G2.
  destruct (write_in_dir dir es2 sums_name (text_of (map (fun r => row (fst r) (snd r)) pre ++ row g (archive_of t) :: post)) x2 D2 F2) as (x3 & es3 & W3 & D3 & F3 & A3 & O3). rewrite W3.
  change (archive_name t) with (archive_of t). rewrite sum_for_row by assumption. rewrite SH, text_eqb_refl. unfold install. rewrite UT.
  destruct (unpack_flat dir fs x3 es3 D3 F3) as (x4 & es4 & U4 & D4 & F4 & N4 & Y4). rewrite U4.
  assert (IN : In (T "rez-next") (map fst fs)).
  { destruct (in_dec (list_eq_dec ascii_dec) (T "rez-next") (map fst fs)) as [J|J]; [exact J|exfalso]. clear -LO J. assert (K : last_of (T "rez-next") fs None = None).
    { clear LO. revert J. generalize (@None text). induction fs as [|[m c'] fs IH]; intros d J; [reflexivity|]. cbn [last_of]. destruct (text_eqb m (T "rez-next")) eqn:E; [apply text_eqb_eq in E; subst m; destruct J; now left|]. apply IH. intros K. apply J. now right. } congruence. }
  destruct (Y4 _ IN) as (c' & L4 & A4). rewrite LO in L4. injection L4 as <-.
  assert (T2 : tidy x4) by (apply write_put in W2 as [W2 _]; apply write_put in W3 as [W3 _]; refine (unpack_tidy _ _ _ _ _ _ U4); refine (put_tidy _ (File _) I _ _ _ W3); exact (put_tidy _ (File _) I _ _ T1 W2)).
  destruct (find_binary dir x4) as [src|] eqn:FB.
  2:{ exfalso. unfold find_binary in FB. rewrite D4 in FB. assert (K : In (dir ++ [T "rez-next"]) (walk dir (Dir es4))) by (apply (walk_all (Dir es4) dir [T "rez-next"] (File c)); [cbn [get]; rewrite A4; reflexivity|exact I|discriminate]).
      apply (find_none _ _ FB) in K. assert (J : is_binary (dir ++ [T "rez-next"]) = true) by (apply is_binary_iff; rewrite last_app_ne by discriminate; now left). congruence. }
  assert (SRC : src = dir ++ [T "rez-next"]).
  { destruct (find_binary_some _ _ _ T2 FB) as (r & z & -> & R & Gz & Z & N). rewrite get_app, D4 in Gz. destruct r as [|n r]; [congruence|]. cbn [get] in Gz. destruct (aget n es4) as [u|] eqn:A; [|discriminate].
    pose proof (F4 n u A) as U. destruct r as [|m r]; [|destruct u; try discriminate; destruct U]. cbn [last] in N. destruct N as [->| ->]; [reflexivity|exfalso]. rewrite (N4 _ NE) in A. rewrite O3 in A by discriminate. rewrite O2 in A; [discriminate|].
    intros K. apply (archive_not_program t). rewrite <- K. now right. }
  subst src. rewrite EX. unfold replace. rewrite (get_child dir es4 _ x4 D4), A4, RN.
  assert (E4 : get e x4 = Some (File b)).
  { apply write_put in W2 as [W2 _]. apply write_put in W3 as [W3 _]. rewrite (unpack_apart _ _ _ AP _ _ _ U4). rewrite (get_put_apart _ _ _ _ _ W3) by (apply (apart_under dir); [exact AP|apply under_app]).
    rewrite (get_put_apart _ _ _ _ _ W2) by (apply (apart_under dir); [exact AP|apply under_app]). rewrite (get_put_apart _ _ _ _ _ P1 AP). exact EB. }
  assert (ND : is_dir e x4 = false) by (apply not_dir_at; intros [es' K]; rewrite E4 in K; discriminate). rewrite ND. cbn [andb negb].
  assert (E5 : get e (del (dir ++ [T "rez-next"]) x4) = Some (File b)) by (rewrite get_del_apart; [exact E4|apply (apart_under dir); [exact AP|apply under_app]]).
  assert (PP : exists x5, put e (File c) (del (dir ++ [T "rez-next"]) x4) = Some x5).
  { revert E5. generalize (del (dir ++ [T "rez-next"]) x4). clear. induction e as [|n e IH]; intros x G; [now exists (File c)|]. cbn [get] in G. destruct x as [| | |fs]; try discriminate. destruct (aget n fs) as [u|] eqn:A; [|discriminate].
    destruct (IH u G) as (u' & P). cbn [put]. rewrite A, P. eexists. reflexivity. }
  destruct PP as (x5 & P5). rewrite P5. exists (gone dir x5). split; [reflexivity|]. split; [rewrite gone_apart by exact AP; exact (get_put_same _ _ _ _ P5)|]. apply gone_self. apply temp_dir_ne.
Qed.

(** ** What it depends on *)
Definition with_get (w : world) (g : text -> option text) : world := mkWorld (u_os w) (u_arch w) (u_ldd w) (u_release w) (u_has w) g (u_sha w) (u_untar w) (u_exe w) (u_rename w) (u_current w) (u_tmp w).
Lemma only_urls w g a x v : a_version a = Some v -> (forall t, target w = Some t -> g (asset_url (strip_v v) (archive_of t)) = u_get w (asset_url (strip_v v) (archive_of t))) -> g (sums_url (strip_v v)) = u_get w (sums_url (strip_v v)) ->
  execute (with_get w g) a x = execute w a x.
Proof.
  intros V A S. unfold execute. change (u_has (with_get w g)) with (u_has w). destruct (_ || _); [|reflexivity]. unfold wanted. rewrite V. change (u_current (with_get w g)) with (u_current w).
  destruct (a_check a); [reflexivity|]. destruct (_ && _); [reflexivity|]. change (target (with_get w g)) with (target w). destruct (target w) as [t|]; [|reflexivity]. change (u_tmp (with_get w g)) with (u_tmp w).
  destruct (enter _ _ _) as [[dir|] x1]; [|reflexivity]. unfold fetch. cbn [u_get with_get]. change (release_url (strip_v v) (archive_name t)) with (asset_url (strip_v v) (archive_of t)). rewrite (A t eq_refl).
  change (release_url (strip_v v) sums_name) with (sums_url (strip_v v)). rewrite S. reflexivity.
Qed.
Lemma only_latest w g a x : a_version a = None -> g api_url = u_get w api_url -> (forall t v, target w = Some t -> wanted w a = Some v -> g (asset_url v (archive_of t)) = u_get w (asset_url v (archive_of t))) ->
  (forall v, wanted w a = Some v -> g (sums_url v) = u_get w (sums_url v)) -> execute (with_get w g) a x = execute w a x.
Proof.
  intros V L A S. unfold execute. change (u_has (with_get w g)) with (u_has w). destruct (_ || _); [|reflexivity]. assert (E : wanted (with_get w g) a = wanted w a) by (unfold wanted; rewrite V; unfold latest; cbn [u_get with_get]; change latest_url with api_url; now rewrite L).
  rewrite E. destruct (wanted w a) as [v|]; [|reflexivity]. change (u_current (with_get w g)) with (u_current w).
  destruct (a_check a); [reflexivity|]. destruct (_ && _); [reflexivity|]. change (target (with_get w g)) with (target w). destruct (target w) as [t|]; [|reflexivity]. change (u_tmp (with_get w g)) with (u_tmp w).
  destruct (enter _ _ _) as [[dir|] x1]; [|reflexivity]. unfold fetch. cbn [u_get with_get]. change (release_url v (archive_name t)) with (asset_url v (archive_of t)). rewrite (A t v eq_refl eq_refl).
  change (release_url v sums_name) with (sums_url v). rewrite (S v eq_refl). reflexivity.
Qed.

(** ** What is left *)
Lemma execute_clean w a x r x' v : execute w a x = (r, x') -> wanted w a = Some v -> plain_version v -> absent (temp_dir (u_tmp w) v) x -> r <> Failed NoSelf -> r <> Failed NotReplaced ->
  (forall e, u_exe w = Some e -> apart (temp_dir (u_tmp w) v) e) -> absent (temp_dir (u_tmp w) v) x'.
Proof.
  intros H W V B N1 N2 A. pose proof (temp_dir_ne (u_tmp w) v) as NE. unfold absent in *. unfold execute in H. destruct (_ || _); [|injection H as _ <-; exact B]. rewrite W in H. destruct (a_check a); [injection H as _ <-; exact B|].
  destruct (_ && _); [injection H as _ <-; exact B|]. destruct (target w) as [t|]; [|injection H as _ <-; exact B]. rewrite (enter_plain _ _ _ V) in H. destruct (Bind_model.make_dirs _ x) as [x1|]; [|injection H as _ <-; exact B].
  unfold fetch in H. destruct (u_get w _) as [body|]; [|injection H as _ <-; now apply gone_self]. destruct (Bind_model.write_file _ _ x1) as [x2|]; [|injection H as _ <-; now apply gone_self].
  destruct (u_get w _) as [sums|]; [|injection H as _ <-; now apply gone_self]. destruct (Bind_model.write_file _ _ x2) as [x3|]; [|injection H as _ <-; now apply gone_self].
  destruct (sum_for _ _) as [h|]; [|injection H as _ <-; now apply gone_self]. destruct (text_eqb _ _); [|injection H as _ <-; now apply gone_self]. unfold install in H.
  destruct (u_untar w body) as [fs|]; [|injection H as _ <-; now apply gone_self]. destruct (unpack _ fs x3) as [[|] x4]; [|injection H as _ <-; now apply gone_self].
  destruct (find_binary _ x4) as [src|]; [|injection H as _ <-; now apply gone_self]. destruct (u_exe w) as [e|]; [|injection H as <- _; congruence]. destruct (replace w src e x4) as [x5|]; [injection H as _ <-; now apply gone_self|injection H as <- _; congruence].
Qed.
Lemma not_replaced_left w a x x' v : execute w a x = (Failed NotReplaced, x') -> wanted w a = Some v -> plain_version v -> exists y, get (temp_dir (u_tmp w) v) x' = Some y.
Proof.
  intros H W V. unfold execute in H. destruct (_ || _); [|discriminate]. rewrite W in H. destruct (a_check a); [destruct (text_eqb _ _); discriminate|]. destruct (_ && _); [discriminate|]. destruct (target w) as [t|]; [|discriminate].
  rewrite (enter_plain _ _ _ V) in H. destruct (Bind_model.make_dirs _ x) as [x1|]; [|discriminate].
  unfold fetch in H. destruct (u_get w _) as [body|]; [|discriminate]. destruct (Bind_model.write_file _ _ x1) as [x2|]; [|discriminate].
  destruct (u_get w _) as [sums|]; [|discriminate]. destruct (Bind_model.write_file _ _ x2) as [x3|]; [|discriminate].
  destruct (sum_for _ _) as [h|]; [|discriminate]. destruct (text_eqb _ _); [|discriminate]. unfold install in H.
  destruct (u_untar w body) as [fs|]; [|discriminate]. destruct (unpack _ fs x3) as [[|] x4]; [|discriminate].
  destruct (find_binary _ x4) as [src|] eqn:F; [|discriminate]. destruct (u_exe w) as [e|]; [|discriminate]. destruct (replace w src e x4) as [x5|]; [discriminate|]. injection H as <-.
  unfold find_binary in F. destruct (get (temp_dir (u_tmp w) v) x4) as [y|]; [now exists y|discriminate].
Qed.
