(** The pip command: what it finds, writes and leaves alone. *)
From Verif Require Import Base Base_lemmas Text_lemmas Maps Version_model Range_model Query_model Rex_model Pyfile_model Pkgfile_model Release_model Release_spec Release_proofs Pip_model Pip_spec Pip_files.
Open Scope string_scope.
Open Scope list_scope.

(** ** names in specifications *)
Lemma cut_none p s : (forall k, starts_with p (skipn k s) = false) -> cut_at p s = s.
Proof.
  intros H. unfold cut_at. assert (E : find_text p s = None); [|rewrite E; reflexivity].
  induction s as [|c s IH]; cbn [find_text]; [rewrite (H 0 : starts_with p [] = false); reflexivity|]. rewrite (H 0 : starts_with p (c :: s) = false). rewrite IH by (intros k; exact (H (S k))). reflexivity.
Qed.
Lemma cut_lead c p n t : ~ In c n -> cut_at (c :: p) (n ++ t) = n ++ cut_at (c :: p) t.
Proof.
  intros H. unfold cut_at. assert (E : find_text (c :: p) (n ++ t) = match find_text (c :: p) t with Some k => Some (length n + k) | None => None end).
  { induction n as [|x n IH]; cbn [app length plus]; [destruct (find_text (c :: p) t); reflexivity|]. cbn [find_text starts_with].
    destruct (Ascii.eqb_spec c x) as [<-|_]; [exfalso; apply H; left; reflexivity|]. cbn [andb]. rewrite IH by (intros X; apply H; right; exact X). destruct (find_text (c :: p) t); reflexivity. }
  rewrite E. destruct (find_text (c :: p) t); [|reflexivity]. rewrite firstn_app, firstn_all2 by lia. f_equal. f_equal. lia.
Qed.
Lemma cut_front p r : p <> [] -> cut_at p (p ++ r) = [].
Proof.
  intros N. unfold cut_at. assert (E : find_text p (p ++ r) = Some 0).
  { assert (S : starts_with p (p ++ r) = true) by (apply starts_with_spec; exists r; reflexivity). destruct (p ++ r) eqn:E; cbn [find_text]; rewrite S; reflexivity. }
  rewrite E. reflexivity.
Qed.
Lemma cut_nil c p : cut_at (c :: p) [] = [].
Proof. reflexivity. Qed.
Definition not_eq_start (r : text) : Prop := starts_with (T "=") r = false.
Lemma find_found p s k : find_text p s = Some k -> starts_with p (skipn k s) = true.
Proof.
  revert k. induction s as [|c s IH]; intros k; cbn [find_text].
  - destruct (starts_with p []) eqn:E; [intros [= <-]; exact E|discriminate].
  - destruct (starts_with p (c :: s)) eqn:E; [intros [= <-]; exact E|]. destruct (find_text p s) as [n|]; [|discriminate]. intros [= <-]. cbn [skipn]. apply IH. reflexivity.
Qed.
Lemma operator_eq p r : In p operators -> starts_with p ("="%char :: r) = true -> starts_with (T "=") r = true.
Proof. unfold operators. cbn [map In]. intros [<-|[<-|[<-|[<-|[<-|[<-|[<-|[<-|[]]]]]]]]]; cbn; congruence. Qed.
(** after a sign: it stays, or nothing stays *)
Lemma cut_sign p s r : In p operators -> In s operators -> not_eq_start r -> cut_at p (s ++ r) = [] \/ exists r', not_eq_start r' /\ cut_at p (s ++ r) = s ++ r'.
Proof.
  intros P S N. unfold cut_at. destruct (find_text p (s ++ r)) as [k|] eqn:F; [|right; exists r; split; [exact N|reflexivity]].
  apply find_found in F. destruct k as [|k]; [left; reflexivity|].
  assert (Long : length s <= Datatypes.S k -> exists r', not_eq_start r' /\ firstn (Datatypes.S k) (s ++ r) = s ++ r').
  { intros L. exists (firstn (Datatypes.S k - length s) r). rewrite firstn_app, (firstn_all2 s) by exact L. split; [|reflexivity]. unfold not_eq_start in *. destruct (Datatypes.S k - length s), r; cbn in *; tauto. }
  unfold operators in S. cbn [map In] in S.
  destruct S as [<-|[<-|[<-|[<-|[<-|[<-|[<-|[<-|[]]]]]]]]]; try (right; apply Long; cbn; lia);
    (destruct k as [|k]; [exfalso; cbn in F; apply operator_eq in F; [unfold not_eq_start in N; congruence|exact P]|right; apply Long; cbn; lia]).
Qed.
Lemma fold_cut_nil l : (forall p, In p l -> In p operators) -> fold_left (fun n p => cut_at p n) l [] = [].
Proof.
  induction l as [|p l IH]; intros H; [reflexivity|]. cbn [fold_left]. assert (E : cut_at p [] = []); [|rewrite E; apply IH; intros q Q; apply H; right; exact Q].
  unfold cut_at. destruct (find_text p []); [apply firstn_nil|reflexivity].
Qed.
Lemma fold_cut_sign s l : In s operators -> (forall p, In p l -> In p operators) -> forall r, not_eq_start r ->
  fold_left (fun n p => cut_at p n) l (s ++ r) = [] \/ (~ In s l /\ exists r', not_eq_start r' /\ fold_left (fun n p => cut_at p n) l (s ++ r) = s ++ r').
Proof.
  intros S. induction l as [|p l IH]; intros H r N; cbn [fold_left]; [right; split; [intros []|exists r; split; [exact N|reflexivity]]|].
  assert (H' : forall q, In q l -> In q operators) by (intros q Q; apply H; right; exact Q).
  destruct (cut_sign p s r (H p (or_introl eq_refl)) S N) as [E|(r' & N' & E)].
  - left. rewrite E. apply fold_cut_nil, H'.
  - rewrite E. destruct (list_eq_dec ascii_dec p s) as [->|D].
    + left. rewrite cut_front in E by (intros ->; repeat (destruct S as [S|S]; [discriminate S|]); destruct S). destruct s; [repeat (destruct S as [S|S]; [discriminate S|]); destruct S|discriminate E].
    + destruct (IH H' r' N') as [F|(F1 & F2)]; [left; exact F|right]. split; [intros [X|X]; [contradiction|contradiction]|exact F2].
Qed.
Lemma operator_char p : In p operators -> exists c q, p = c :: q /\ In c (T "=><!~@").
Proof. unfold operators. cbn [map In]. intros [<-|[<-|[<-|[<-|[<-|[<-|[<-|[<-|[]]]]]]]]]; (eexists; eexists; split; [reflexivity|cbn; tauto]). Qed.
Lemma fold_cut_lead n l : no_sign n -> (forall p, In p l -> In p operators) -> forall t, fold_left (fun n p => cut_at p n) l (n ++ t) = n ++ fold_left (fun n p => cut_at p n) l t.
Proof.
  intros N. induction l as [|p l IH]; intros H t; [reflexivity|]. cbn [fold_left]. destruct (operator_char p (H p (or_introl eq_refl))) as (c & q & E & C).
  rewrite E, cut_lead by (intros X; exact (N c X C)). rewrite <- E. apply IH. intros q' Q. apply H. right. exact Q.
Qed.
Lemma spec_name n s rest : no_sign n -> sign s -> starts_with (T "=") rest = false -> parse_pkg_name_from_spec (n ++ s ++ rest) = cli_name (trim n).
Proof.
  intros N S R. unfold parse_pkg_name_from_spec. rewrite fold_cut_lead by (exact N || tauto).
  destruct (fold_cut_sign s operators S (fun p H => H) rest R) as [E|(E & _)]; [|destruct (E S)]. rewrite E, app_nil_r. reflexivity.
Qed.
Lemma spec_plain n : no_sign n -> parse_pkg_name_from_spec n = cli_name (trim n).
Proof.
  intros N. unfold parse_pkg_name_from_spec. pose proof (fold_cut_lead n operators N (fun p H => H) []) as H. rewrite app_nil_r in H. rewrite H, fold_cut_nil, app_nil_r by tauto. reflexivity.
Qed.
(** ** files *)
Lemma join_prefix dest : exists pre, forall r, starts_with (T "/") r = false -> path_join dest r = pre ++ r.
Proof.
  destruct (is_nil dest || ends_with (T "/") dest) eqn:E; [exists dest|exists (dest ++ T "/")]; intros r H; unfold path_join; rewrite H, E; [reflexivity|rewrite <- app_assoc; reflexivity].
Qed.
Lemma join_inj dest r s : starts_with (T "/") r = false -> starts_with (T "/") s = false -> path_join dest r = path_join dest s -> r = s.
Proof. destruct (join_prefix dest) as [pre P]. intros R S. rewrite (P r R), (P s S). apply app_inv_head. Qed.
Lemma copy_spec f dest t : forall d d' ok, relative t -> NoDup (akeys t) -> copy_files f d dest t = (d', ok) ->
  d_dirs d' = d_dirs d /\ (forall p, (forall r, In r (akeys t) -> p <> path_join dest r) -> content d' p = content d p) /\
  (ok = true -> holds d' dest t) /\ ((forall p, no_write f p = false) -> ok = true).
Proof.
  induction t as [|[r c] t IH]; intros d d' ok R N; cbn [copy_files].
  - intros [= <- <-]. split; [reflexivity|]. split; [reflexivity|]. split; [intros _ r c H; discriminate H|reflexivity].
  - destruct (no_write f (path_join dest r)) eqn:W.
    + intros [= <- <-]. split; [reflexivity|]. split; [reflexivity|]. split; [discriminate|]. intros H. rewrite H in W. discriminate.
    + intros H. inversion N as [|? ? N1 N2]; subst. assert (R' : relative t) by (intros x X; apply R; right; exact X).
      destruct (IH _ d' ok R' N2 H) as (I1 & I2 & I3 & I4). split; [exact I1|]. split.
      * intros p P. rewrite I2 by (intros x X; apply P; right; exact X). unfold content. cbn [d_files]. apply aget_put_other. apply P. left. reflexivity.
      * split; [|exact I4]. intros O x y G. cbn [aget] in G. destruct (text_eqb x r) eqn:E.
        -- apply text_eqb_eq in E as ->. injection G as <-. rewrite I2; [unfold content; cbn [d_files]; apply aget_put_same|].
           intros z Z J. apply join_inj in J; [subst z; exact (N1 Z)|apply R; left; reflexivity|apply R'; exact Z].
        -- apply I3; assumption.
Qed.
Lemma cli_slash n : starts_with (T "/") (cli_name n) = starts_with (T "/") n.
Proof. destruct n as [|c n]; [reflexivity|]. unfold cli_name, swap, lower. cbn [map]. destruct c as [[] [] [] [] [] [] [] []]; reflexivity. Qed.
Lemma package_file_apart dest t r : relative t -> In r (akeys t) -> path_join dest (T "package.py") <> path_join (path_join dest (T "python")) r.
Proof.
  intros R H E. specialize (R r H). destruct (join_prefix dest) as [pre P]. rewrite (P (T "package.py")), (P (T "python")) in E by reflexivity.
  unfold path_join in E. rewrite R in E. assert (X : is_nil (pre ++ T "python") || ends_with (T "/") (pre ++ T "python") = false).
  { apply (usual_ends (pre ++ T "python")). exists (pre ++ T "pytho"), "n"%char. split; [rewrite <- app_assoc; reflexivity|discriminate]. }
  rewrite X, <- app_assoc in E. apply app_inv_head in E. discriminate E.
Qed.
Definition payload (dest : text) : text := path_join dest (T "python").
Lemma create_spec f d i t dest d' ok : relative t -> NoDup (akeys t) -> create_rez_package f d i t dest = (d', ok) ->
  (forall p, p <> path_join dest (T "package.py") -> (forall r, In r (akeys t) -> p <> path_join (payload dest) r) -> content d' p = content d p) /\
  (forall p, In p (d_dirs d') -> In p (d_dirs d) \/ p = dest \/ p = payload dest) /\ (forall p, In p (d_dirs d) -> In p (d_dirs d')) /\
  (ok = true -> holds d' (payload dest) t /\ content d' (path_join dest (T "package.py")) = Some (cli_package_py i)) /\
  (nothing_refused f -> ok = true).
Proof.
  intros R N. unfold create_rez_package. destruct (make_dir f d dest) as [d1|] eqn:M1.
  2:{ intros [= <- <-]. split; [reflexivity|]. split; [tauto|]. split; [tauto|]. split; [discriminate|]. intros [H _]. unfold make_dir in M1. rewrite H in M1. discriminate. }
  destruct (make_dir_below f d dest d1 [] M1 eq_refl) as (_ & A1 & A2 & A3).
  assert (A4 : forall p, In p (d_dirs d1) -> In p (d_dirs d) \/ p = dest).
  { unfold make_dir in M1. destruct (no_dir f dest); [discriminate|]. injection M1 as <-. cbn [d_dirs]. intros p. destruct (mem_text dest (d_dirs d)); [tauto|]. intros H. apply in_app_or in H as [H|[H|[]]]; [left; exact H|right; symmetry; exact H]. }
  fold (payload dest). destruct (make_dir f d1 (payload dest)) as [d2|] eqn:M2.
  2:{ intros [= <- <-]. split; [intros p _ _; unfold content; rewrite A3; reflexivity|]. split; [intros p H; apply A4 in H; tauto|]. split; [exact A2|]. split; [discriminate|]. intros [H _]. unfold make_dir in M2. rewrite H in M2. discriminate. }
  destruct (make_dir_below f d1 _ d2 [] M2 eq_refl) as (_ & B1 & B2 & B3).
  assert (B4 : forall p, In p (d_dirs d2) -> In p (d_dirs d1) \/ p = payload dest).
  { unfold make_dir in M2. destruct (no_dir f (payload dest)); [discriminate|]. injection M2 as <-. cbn [d_dirs]. intros p. destruct (mem_text (payload dest) (d_dirs d1)); [tauto|]. intros H. apply in_app_or in H as [H|[H|[]]]; [left; exact H|right; symmetry; exact H]. }
  destruct (copy_files f d2 (payload dest) t) as [d3 ok3] eqn:C. destruct (copy_spec f (payload dest) t d2 d3 ok3 R N C) as (C1 & C2 & C3 & C4).
  assert (D2 : forall p, content d2 p = content d p) by (intros p; unfold content; rewrite B3, A3; reflexivity).
  assert (Dirs : forall p, In p (d_dirs d3) -> In p (d_dirs d) \/ p = dest \/ p = payload dest) by (intros p H; rewrite C1 in H; apply B4 in H as [H|H]; [apply A4 in H; tauto|tauto]).
  assert (Keep : forall p, In p (d_dirs d) -> In p (d_dirs d3)) by (intros p H; rewrite C1; apply B2, A2, H).
  destruct ok3.
  - destruct (write_in f d3 dest (T "package.py") (cli_package_py i)) as [d4|] eqn:W.
    + intros [= <- <-]. destruct (write_below f d3 dest (T "package.py") _ d4 [] W eq_refl eq_refl) as (_ & E1 & E2 & E3).
      assert (O : forall p, p <> path_join dest (T "package.py") -> content d4 p = content d3 p).
      { intros p H. unfold write_in in W. destruct (mem_text dest (d_dirs d3) && negb (no_write f (path_join dest (T "package.py")))); [|discriminate]. injection W as <-. unfold content. cbn [d_files]. apply aget_put_other. exact H. }
      split; [intros p H K; rewrite (O p H), (C2 p K); apply D2|]. split; [rewrite E1; exact Dirs|]. split; [rewrite E1; exact Keep|]. split; [|reflexivity]. intros _. split; [|exact E2].
      intros r c G. rewrite O; [apply C3; [reflexivity|exact G]|]. intros X. apply (package_file_apart dest t r R); [apply aget_some; exists c; exact G|symmetry; exact X].
    + intros [= <- <-]. split; [intros p H K; rewrite (C2 p K); apply D2|]. split; [exact Dirs|]. split; [exact Keep|]. split; [discriminate|]. intros [_ H]. exfalso. unfold write_in in W. rewrite H in W.
      assert (M : mem_text dest (d_dirs d3) = true) by (apply mem_in; rewrite C1; apply B2, A1). rewrite M in W. discriminate.
  - intros [= <- <-]. split; [intros p H K; rewrite (C2 p K); apply D2|]. split; [exact Dirs|]. split; [exact Keep|]. split; [discriminate|]. intros [_ H]. apply C4, H.
Qed.
(** ** one specification *)
Section Run.
Context (u : outside) (target : text).
Lemma one_dry a py inst d t s : g_dry_run a = true -> pip_one u target a py inst d t s = (d, t, true).
Proof. intros H. unfold pip_one. rewrite H. reflexivity. Qed.
Lemma all_dry a py inst d t ss : g_dry_run a = true -> pip_all u target a py inst d t ss = (d, true).
Proof. intros H. revert d t. induction ss as [|s ss IH]; intros d t; [reflexivity|]. cbn [pip_all]. rewrite one_dry by exact H. apply IH. Qed.
Lemma execute_dry a local release d : g_dry_run a = true ->
  fst (execute u target a local release d) = d /\
  (snd (execute u target a local release d) = true <-> find_python u a <> None /\ exists s ss, collect_specs u a = Some (s :: ss)).
Proof.
  intros H. unfold execute. destruct (find_python u a) as [py|]; [|cbn; split; [reflexivity|split; [discriminate|intros [X _]; contradiction]]].
  destruct (collect_specs u a) as [[|s ss]|]; cbn [fst snd].
  - split; [reflexivity|]. split; [discriminate|intros (_ & s & ss & X); discriminate].
  - rewrite all_dry by exact H. split; [reflexivity|]. split; [intros _; split; [discriminate|exists s, ss; reflexivity]|reflexivity].
  - split; [reflexivity|]. split; [discriminate|intros (_ & s & ss & X); discriminate].
Qed.
(** nothing is found: nothing is written *)
Lemma all_unfound a py inst ss : g_dry_run a = false -> (forall s t l, In s ss -> u_install u py l t <> None) -> (forall s t, In s ss -> discover u py s t = None) ->
  forall d t, pip_all u target a py inst d t ss = (d, true).
Proof.
  intros D I. induction ss as [|s ss IH]; intros F d t; [reflexivity|]. cbn [pip_all]. unfold pip_one. rewrite D.
  destruct (u_install u py (install_args target a s) t) as [t'|] eqn:E; [|destruct (I s t _ (or_introl eq_refl) E)]. rewrite F by (left; reflexivity).
  apply IH; [intros s' t0 l H; apply (I s'); right; exact H|intros s' t0 H; apply F; right; exact H].
Qed.
(** nothing outside of the directory *)
Lemma one_below a py inst d t s d' t' ok : tidy u -> tidy_files t -> (forall t i, discover u py s t = Some i -> modest i) -> pip_one u target a py inst d t s = (d', t', ok) -> only_below inst d d'.
Proof.
  intros Ti Tt M. unfold pip_one. destruct (g_dry_run a); [intros [= <- <- <-]; apply below_refl|].
  destruct (u_install u py (install_args target a s) t) as [t1|] eqn:E; [|intros [= <- <- <-]; apply below_refl].
  destruct (discover u py s t1) as [i|] eqn:F; [|intros [= <- <- <-]; apply below_refl].
  destruct (create_rez_package (u_refuse u) d i t1 (package_dir inst i)) as [d1 ok1] eqn:C. intros [= <- <- <-].
  destruct (Ti _ _ _ _ Tt E) as [R N]. destruct (create_spec _ _ _ _ _ _ _ R N C) as (C1 & C2 & C3 & _). destruct (M _ _ F) as [M1 M2].
  assert (B : starts_with inst (package_dir inst i) = true).
  { unfold package_dir. eapply starts_trans; [apply join_below; rewrite cli_slash; exact M1|apply join_below; exact M2]. }
  assert (Bp : starts_with inst (payload (package_dir inst i)) = true) by (eapply starts_trans; [exact B|apply join_below; reflexivity]).
  intros p P. split.
  - apply C1.
    + intros ->. assert (X : starts_with inst (path_join (package_dir inst i) (T "package.py")) = true) by (eapply starts_trans; [exact B|apply join_below; reflexivity]). congruence.
    + intros r Hr ->. assert (X : starts_with inst (path_join (payload (package_dir inst i)) r) = true) by (eapply starts_trans; [exact Bp|apply join_below, R, Hr]). congruence.
  - split; [|apply C3]. intros H. apply C2 in H as [H|[-> | ->]]; [exact H|congruence|congruence].
Qed.
Lemma one_tidy a py inst d t s d' t' ok : tidy u -> tidy_files t -> pip_one u target a py inst d t s = (d', t', ok) -> tidy_files t'.
Proof.
  intros Ti Tt. unfold pip_one. destruct (g_dry_run a); [intros [= <- <- <-]; exact Tt|]. destruct (u_install u py (install_args target a s) t) as [t1|] eqn:E; [|intros [= <- <- <-]; exact Tt].
  pose proof (Ti _ _ _ _ Tt E) as T1. destruct (discover u py s t1) as [i|]; [|intros [= <- <- <-]; exact T1]. destruct (create_rez_package _ _ _ _ _) as [d1 ok1]. intros [= <- <- <-]. exact T1.
Qed.
Lemma all_below a py inst ss : tidy u -> (forall s t i, In s ss -> discover u py s t = Some i -> modest i) -> forall d t d' ok, tidy_files t -> pip_all u target a py inst d t ss = (d', ok) -> only_below inst d d'.
Proof.
  intros Ti. induction ss as [|s ss IH]; intros M d t d' ok Tt; cbn [pip_all]; [intros [= <- <-]; apply below_refl|].
  destruct (pip_one u target a py inst d t s) as [[d1 t1] ok1] eqn:O. pose proof (one_below _ _ _ _ _ _ _ _ _ Ti Tt (fun t i => M s t i (or_introl eq_refl)) O) as B.
  destruct ok1; [|intros [= <- <-]; exact B]. intros H. eapply below_trans; [exact B|]. eapply IH; [|exact (one_tidy _ _ _ _ _ _ _ _ _ Ti Tt O)|exact H]. intros s' t' i' I. apply M. right. exact I.
Qed.
Lemma tidy_nil : tidy_files [].
Proof. split; [intros r []|constructor]. Qed.
Definition chosen (a : pip_args) (local release : text) : text := match g_prefix a with Some p => p | None => if g_release a then release else local end.
Lemma execute_below a local release d : tidy u -> (forall py s t i, discover u py s t = Some i -> modest i) -> only_below (chosen a local release) d (fst (execute u target a local release d)).
Proof.
  intros Ti M. unfold execute. fold (chosen a local release). destruct (find_python u a) as [py|]; [|apply below_refl]. destruct (collect_specs u a) as [[|s ss]|]; try apply below_refl.
  destruct (pip_all u target a py (chosen a local release) d [] (s :: ss)) as [d' ok] eqn:E. cbn [fst]. eapply all_below; [exact Ti| |apply tidy_nil|exact E]. intros s' t' i _. apply M.
Qed.
(** ** several specifications share the directory *)
Lemma all_app a py inst xs : g_dry_run a = false -> forall d t ys d' , pip_all u target a py inst d t (xs ++ ys) = (d', true) ->
  exists d1 t1, fetched u target a py t xs = Some t1 /\ pip_all u target a py inst d t xs = (d1, true) /\ pip_all u target a py inst d1 t1 ys = (d', true).
Proof.
  intros D. induction xs as [|s xs IH]; intros d t ys d'; cbn [app pip_all fetched]; [intros H; exists d, t; split; [reflexivity|split; [reflexivity|exact H]]|].
  unfold pip_one. rewrite D. destruct (u_install u py (install_args target a s) t) as [t1|]; [|discriminate].
  destruct (discover u py s t1) as [i|]; [destruct (create_rez_package (u_refuse u) d i t1 (package_dir inst i)) as [d1 [|]]; [|discriminate]|]; apply IH.
Qed.
Lemma fetched_app a py xs ys : forall t, fetched u target a py t (xs ++ ys) = match fetched u target a py t xs with Some t1 => fetched u target a py t1 ys | None => None end.
Proof. induction xs as [|s xs IH]; intros t; cbn [app fetched]; [reflexivity|]. destruct (u_install u py (install_args target a s) t); [apply IH|reflexivity]. Qed.
Lemma keeps_trans a b c : keeps_files a b -> keeps_files b c -> keeps_files a c.
Proof. intros H K r x G. apply K, H, G. Qed.
Lemma fetched_keeps a py xs : (forall l t t', u_install u py l t = Some t' -> keeps_files t t') -> forall t t', fetched u target a py t xs = Some t' -> keeps_files t t'.
Proof.
  intros K. induction xs as [|s xs IH]; intros t t'; cbn [fetched]; [intros [= <-] r c H; exact H|]. destruct (u_install u py (install_args target a s) t) as [t1|] eqn:E; [|discriminate].
  intros H. eapply keeps_trans; [exact (K _ _ _ E)|exact (IH _ _ H)].
Qed.
Lemma fetched_tidy a py xs : tidy u -> forall t t', tidy_files t -> fetched u target a py t xs = Some t' -> tidy_files t'.
Proof.
  intros Ti. induction xs as [|s xs IH]; intros t t' Tt; cbn [fetched]; [intros [= <-]; exact Tt|]. destruct (u_install u py (install_args target a s) t) as [t1|] eqn:E; [|discriminate]. apply IH, (Ti _ _ _ _ Tt E).
Qed.
Lemma last_holds a py inst xs s d t d' t' i : tidy u -> tidy_files t -> g_dry_run a = false -> pip_all u target a py inst d t (xs ++ [s]) = (d', true) -> fetched u target a py t (xs ++ [s]) = Some t' -> discover u py s t' = Some i ->
  holds d' (path_join (package_dir inst i) (T "python")) t' /\ content d' (path_join (package_dir inst i) (T "package.py")) = Some (cli_package_py i).
Proof.
  intros Ti Tt D H F I. destruct (all_app a py inst xs D d t [s] d' H) as (d1 & t1 & F1 & _ & H1). rewrite fetched_app, F1 in F. cbn [fetched] in F. cbn [pip_all] in H1. unfold pip_one in H1. rewrite D in H1.
  destruct (u_install u py (install_args target a s) t1) as [t2|] eqn:E; [|discriminate]. injection F as ->. rewrite I in H1.
  destruct (create_rez_package (u_refuse u) d1 i t' (package_dir inst i)) as [d2 [|]] eqn:C; [|discriminate]. injection H1 as <-.
  destruct (Ti _ _ _ _ (fetched_tidy a py xs Ti t t1 Tt F1) E) as [R N]. destruct (create_spec _ _ _ _ _ _ _ R N C) as (_ & _ & _ & C4 & _). exact (C4 eq_refl).
Qed.
(** nothing that is refused: the command goes through *)
Lemma one_created a py inst d t s t' i : tidy u -> tidy_files t -> nothing_refused (u_refuse u) -> g_dry_run a = false -> u_install u py (install_args target a s) t = Some t' -> discover u py s t' = Some i ->
  exists d', pip_one u target a py inst d t s = (d', t', true) /\ holds d' (path_join (package_dir inst i) (T "python")) t' /\ content d' (path_join (package_dir inst i) (T "package.py")) = Some (cli_package_py i) /\
    (forall p, p <> path_join (package_dir inst i) (T "package.py") -> (forall r, In r (akeys t') -> p <> path_join (path_join (package_dir inst i) (T "python")) r) -> content d' p = content d p).
Proof.
  intros Ti Tt Nr D E I. unfold pip_one. rewrite D, E, I. destruct (create_rez_package (u_refuse u) d i t' (package_dir inst i)) as [d' ok] eqn:C.
  destruct (Ti _ _ _ _ Tt E) as [R N]. destruct (create_spec _ _ _ _ _ _ _ R N C) as (C1 & _ & _ & C4 & C5). rewrite (C5 Nr) in *. exists d'. split; [reflexivity|].
  destruct (C4 eq_refl) as [C6 C7]. split; [exact C6|]. split; [exact C7|exact C1].
Qed.
Lemma all_succeeds a py inst ss : tidy u -> nothing_refused (u_refuse u) -> (forall l t, u_install u py l t <> None) -> forall d t, tidy_files t -> snd (pip_all u target a py inst d t ss) = true.
Proof.
  intros Ti Nr A. induction ss as [|s ss IH]; intros d t Tt; [reflexivity|]. cbn [pip_all]. unfold pip_one. destruct (g_dry_run a); [apply IH, Tt|].
  destruct (u_install u py (install_args target a s) t) as [t1|] eqn:E; [|destruct (A _ _ E)]. destruct (discover u py s t1) as [i|]; [|apply IH, (Ti _ _ _ _ Tt E)].
  destruct (create_rez_package (u_refuse u) d i t1 (package_dir inst i)) as [d1 ok] eqn:C. pose proof (Ti _ _ _ _ Tt E) as T1. destruct T1 as [R N]. destruct (create_spec _ _ _ _ _ _ _ R N C) as (_ & _ & _ & _ & C5).
  rewrite (C5 Nr). apply IH. split; assumption.
Qed.
(** a name with something in brackets *)
Lemma scan_none wanted t es : (forall e n v, In e es -> dist_info e = Some (n, v) -> cli_name n <> wanted) -> scan_entries wanted t es = None.
Proof.
  induction es as [|e es IH]; intros H; [reflexivity|]. cbn [scan_entries]. destruct (dist_info e) as [[n v]|] eqn:E.
  - destruct (text_eqb (cli_name n) wanted) eqn:X; [apply text_eqb_eq in X; destruct (H e n v (or_introl eq_refl) E X)|]. apply IH. intros e' n' v' I. apply H. right. exact I.
  - apply IH. intros e' n' v' I. apply H. right. exact I.
Qed.
Lemma scan_some wanted t es i : scan_entries wanted t es = Some i ->
  exists a e b, es = a ++ e :: b /\ dist_info e = Some (n_name i, n_version i) /\ cli_name (n_name i) = wanted /\ (forall e' n v, In e' a -> dist_info e' = Some (n, v) -> cli_name n <> wanted).
Proof.
  induction es as [|e es IH]; [discriminate|]. cbn [scan_entries]. destruct (dist_info e) as [[n v]|] eqn:E.
  - destruct (text_eqb (cli_name n) wanted) eqn:X.
    + apply text_eqb_eq in X. destruct (match aget (e ++ T "/METADATA") t with Some c => fold_left metadata_line (lines_of c) ([], []) | None => ([], []) end) as [reqs sum]. intros [= <-]. exists [], e, es.
      split; [reflexivity|]. split; [exact E|]. split; [exact X|intros e' n' v' []].
    + intros H. destruct (IH H) as (a & e0 & b & -> & H1 & H2 & H3). exists (e :: a), e0, b. split; [reflexivity|]. split; [exact H1|]. split; [exact H2|]. intros e' n' v' [<-|I] G; [|apply (H3 e' n' v' I G)].
      rewrite E in G. injection G as <- <-. apply text_eqb_neq in X. exact X.
  - intros H. destruct (IH H) as (a & e0 & b & -> & H1 & H2 & H3). exists (e :: a), e0, b. split; [reflexivity|]. split; [exact H1|]. split; [exact H2|]. intros e' n' v' [<-|I] G; [congruence|apply (H3 e' n' v' I G)].
Qed.
End Run.
(** ** what pip shows *)
Definition labels : list text := map T ["Name: "; "Version: "; "Requires: "; "Summary: "].
Lemma fold_show_keep {A} (get : pip_info -> A) label ls : (forall i l, starts_with label l = false -> get (show_line i l) = get i) -> unlabelled label ls -> forall i, get (fold_left show_line ls i) = get i.
Proof. intros K. induction ls as [|l ls IH]; intros U i; [reflexivity|]. cbn [fold_left]. rewrite IH by (intros x X; apply U; right; exact X). apply K, U. left. reflexivity. Qed.
Lemma fold_show_last {A} (get : pip_info -> A) label (f : text -> A) ls v : (forall i l, starts_with label l = false -> get (show_line i l) = get i) -> (forall i x, get (show_line i (label ++ x)) = f x) ->
  last_value label ls v -> forall i, get (fold_left show_line ls i) = f v.
Proof. intros K F (a & b & -> & U) i. rewrite fold_left_app. cbn [fold_left]. rewrite (fold_show_keep get label b K U). apply F. Qed.
Lemma show_name_keep i l : starts_with (T "Name: ") l = false -> n_name (show_line i l) = n_name i.
Proof.
  intros H. unfold show_line. assert (E : strip_prefix (T "Name: ") l = None) by (unfold strip_prefix; rewrite H; reflexivity). rewrite E.
  destruct (strip_prefix (T "Version: ") l); [reflexivity|]. destruct (strip_prefix (T "Requires: ") l); [reflexivity|]. destruct (strip_prefix (T "Summary: ") l); reflexivity.
Qed.
Lemma show_version_keep i l : starts_with (T "Version: ") l = false -> n_version (show_line i l) = n_version i.
Proof.
  intros H. unfold show_line. assert (E : strip_prefix (T "Version: ") l = None) by (unfold strip_prefix; rewrite H; reflexivity). rewrite E.
  destruct (strip_prefix (T "Name: ") l); [reflexivity|]. destruct (strip_prefix (T "Requires: ") l); [reflexivity|]. destruct (strip_prefix (T "Summary: ") l); reflexivity.
Qed.
Lemma show_requires_keep i l : starts_with (T "Requires: ") l = false -> n_requires (show_line i l) = n_requires i.
Proof.
  intros H. unfold show_line. assert (E : strip_prefix (T "Requires: ") l = None) by (unfold strip_prefix; rewrite H; reflexivity). rewrite E.
  destruct (strip_prefix (T "Name: ") l); [reflexivity|]. destruct (strip_prefix (T "Version: ") l); [reflexivity|]. destruct (strip_prefix (T "Summary: ") l); reflexivity.
Qed.
Lemma show_summary_keep i l : starts_with (T "Summary: ") l = false -> n_summary (show_line i l) = n_summary i.
Proof.
  intros H. unfold show_line. assert (E : strip_prefix (T "Summary: ") l = None) by (unfold strip_prefix; rewrite H; reflexivity). rewrite E.
  destruct (strip_prefix (T "Name: ") l); [reflexivity|]. destruct (strip_prefix (T "Version: ") l); [reflexivity|]. destruct (strip_prefix (T "Requires: ") l); reflexivity.
Qed.
Lemma strip_app p s : strip_prefix p (p ++ s) = Some s.
Proof. unfold strip_prefix. assert (E : starts_with p (p ++ s) = true) by (apply starts_with_spec; exists s; reflexivity). rewrite E. f_equal. clear E. induction p as [|c p IH]; [reflexivity|exact IH]. Qed.
Definition required (v : text) : list text := filter (fun s => negb (is_nil s)) (map trim (split_on "," v)).
Lemma show_parsed out n v : last_value (T "Name: ") (lines_of out) n -> last_value (T "Version: ") (lines_of out) v -> trim n <> [] -> trim v <> [] ->
  exists i, parse_pip_show_output out = Some i /\ n_name i = trim n /\ n_version i = trim v /\
    (forall r, last_value (T "Requires: ") (lines_of out) r -> n_requires i = required r) /\ (unlabelled (T "Requires: ") (lines_of out) -> n_requires i = []) /\
    (forall s, last_value (T "Summary: ") (lines_of out) s -> n_summary i = trim s) /\ (unlabelled (T "Summary: ") (lines_of out) -> n_summary i = []).
Proof.
  intros N V Nn Vn. unfold parse_pip_show_output. set (i := fold_left show_line (lines_of out) (mkInfo [] [] [] [])).
  assert (EN : n_name i = trim n) by (apply (fold_show_last n_name (T "Name: ") trim _ n show_name_keep); [reflexivity|exact N]).
  assert (EV : n_version i = trim v) by (apply (fold_show_last n_version (T "Version: ") trim _ v show_version_keep); [reflexivity|exact V]).
  exists i. cbv zeta. rewrite EN, EV. assert (E1 : is_nil (trim n) = false) by (destruct (trim n); [contradiction|reflexivity]). assert (E2 : is_nil (trim v) = false) by (destruct (trim v); [contradiction|reflexivity]).
  rewrite E1, E2. split; [reflexivity|]. split; [reflexivity|]. split; [reflexivity|]. split; [|split; [|split]].
  - intros r H. apply (fold_show_last n_requires (T "Requires: ") required _ r show_requires_keep); [reflexivity|exact H].
  - intros H. apply (fold_show_keep n_requires (T "Requires: ") _ show_requires_keep H).
  - intros s H. apply (fold_show_last n_summary (T "Summary: ") trim _ s show_summary_keep); [reflexivity|exact H].
  - intros H. apply (fold_show_keep n_summary (T "Summary: ") _ show_summary_keep H).
Qed.
Lemma show_unparsed out : unlabelled (T "Name: ") (lines_of out) \/ unlabelled (T "Version: ") (lines_of out) -> parse_pip_show_output out = None.
Proof.
  unfold parse_pip_show_output. intros [U|U].
  - rewrite (fold_show_keep n_name (T "Name: ") _ show_name_keep U). reflexivity.
  - rewrite (fold_show_keep n_version (T "Version: ") _ show_version_keep U). cbn [n_version is_nil]. rewrite orb_true_r. reflexivity.
Qed.
(** ** names of directories *)
Lemma last_split_app c a b : ~ In c b -> last_split c (a ++ c :: b) = Some (a, b).
Proof.
  intros H. assert (Nn : last_split c b = None).
  { induction b as [|x b IH]; [reflexivity|]. cbn. rewrite IH by (intros X; apply H; right; exact X). destruct (Ascii.eqb_spec x c) as [->|]; [exfalso; apply H; left; reflexivity|reflexivity]. }
  induction a as [|x a IH]; cbn [app last_split]; [rewrite Nn, Ascii.eqb_refl; reflexivity|]. rewrite IH. reflexivity.
Qed.
Lemma trim_end_once p s : p <> [] -> ends_with p s = false -> trim_end_text p (s ++ p) = s.
Proof.
  intros N E. unfold trim_end_text. rewrite app_length, rev_app_distr. destruct p as [|c p]; [contradiction|]. rewrite Nat.add_comm. cbn [length plus trim_start_text]. rewrite strip_app.
  assert (X : strip_prefix (rev (c :: p)) (rev s) = None).
  { unfold strip_prefix. destruct (starts_with (rev (c :: p)) (rev s)) eqn:Y; [|reflexivity]. exfalso. apply starts_with_spec in Y as [z Y]. apply (f_equal (@rev ascii)) in Y. rewrite rev_involutive, rev_app_distr, rev_involutive in Y.
    assert (Z : ends_with (c :: p) s = true) by (apply ends_with_spec; exists (rev z); exact Y). congruence. }
  destruct (length p + length s); cbn [trim_start_text]; [|rewrite X]; apply rev_involutive.
Qed.
Lemma dist_info_split n v : ~ In "-"%char v -> v <> T "info" -> dist_info (n ++ T "-" ++ v ++ T ".dist-info") = Some (n, v).
Proof.
  intros D I. unfold dist_info. assert (E : ends_with (T ".dist-info") (n ++ T "-" ++ v ++ T ".dist-info") = true) by (apply ends_with_spec; exists (n ++ T "-" ++ v); rewrite <- !app_assoc; reflexivity).
  rewrite E. replace (n ++ T "-" ++ v ++ T ".dist-info") with ((n ++ T "-" ++ v) ++ T ".dist-info") by (rewrite <- !app_assoc; reflexivity).
  rewrite trim_end_once; [apply last_split_app; exact D|discriminate|].
  destruct (ends_with (T ".dist-info") (n ++ T "-" ++ v)) eqn:X; [|reflexivity]. exfalso. apply ends_with_spec in X as [z X].
  assert (Y : last_split "-" (n ++ T "-" ++ v) = Some (n, v)) by (apply last_split_app; exact D).
  rewrite X in Y. replace (z ++ T ".dist-info") with ((z ++ T ".dist") ++ "-"%char :: T "info") in Y by (rewrite <- app_assoc; reflexivity).
  rewrite last_split_app in Y by (cbn; intuition discriminate). injection Y as _ Y. symmetry in Y. contradiction.
Qed.
(** ** the writer of the API *)
Lemma write_spec f d p install over :
  let dir := path_join (path_join install (i_name p)) (i_version p) in
  match write_pip_package f d p install over with
  | AlreadyThere => over = false /\ exists_at d dir = true
  | Written w d' => w = dir /\ (over = true \/ exists_at d dir = false) /\ content d' (path_join dir (T "package.py")) = Some (api_package_py p) /\
      (forall q, q <> path_join dir (T "package.py") -> content d' q = content d q) /\ (forall q, In q (d_dirs d') <-> In q (d_dirs d) \/ q = dir)
  | WriteFailed d' => d_files d' = d_files d /\ ~ nothing_refused f
  end.
Proof.
  cbv zeta. unfold write_pip_package. set (dir := path_join (path_join install (i_name p)) (i_version p)). destruct (negb over && exists_at d dir) eqn:E.
  { apply andb_true_iff in E as [E1 E2]. apply negb_true_iff in E1. split; assumption. }
  destruct (make_dir f d dir) as [d1|] eqn:M.
  2:{ split; [reflexivity|]. intros [H _]. unfold make_dir in M. rewrite H in M. discriminate. }
  destruct (make_dir_below f d dir d1 [] M eq_refl) as (_ & A1 & A2 & A3).
  assert (A4 : forall q, In q (d_dirs d1) <-> In q (d_dirs d) \/ q = dir).
  { intros q. split; [|intros [H| ->]; [apply A2, H|exact A1]]. unfold make_dir in M. destruct (no_dir f dir); [discriminate|]. injection M as <-. cbn [d_dirs]. destruct (mem_text dir (d_dirs d)); [tauto|].
    intros H. apply in_app_or in H as [H|[H|[]]]; [left; exact H|right; symmetry; exact H]. }
  destruct (write_in f d1 dir (T "package.py") (api_package_py p)) as [d2|] eqn:W.
  - destruct (write_below f d1 dir (T "package.py") _ d2 [] W eq_refl eq_refl) as (_ & E1 & E2 & E3). split; [reflexivity|]. split.
    { destruct over; [left; reflexivity|right]. exact E. }
    split; [exact E2|]. split; [|intros q; rewrite E1; apply A4]. intros q Hq. unfold write_in in W. destruct (mem_text dir (d_dirs d1) && negb (no_write f (path_join dir (T "package.py")))); [|discriminate]. injection W as <-.
    unfold content. cbn [d_files]. rewrite aget_put_other by exact Hq. rewrite A3. reflexivity.
  - split; [exact A3|]. intros [_ H]. unfold write_in in W. rewrite H in W. assert (X : mem_text dir (d_dirs d1) = true) by (apply mem_in; exact A1). rewrite X in W. discriminate.
Qed.
(** ** the specifications *)
Lemma collected u a f c : g_requirement a = Some f -> u_read u f = Some c -> exists l, collect_specs u a = Some (g_packages a ++ l) /\
  (forall s, In s l <-> exists x, In x (lines_of c) /\ s = trim x /\ s <> [] /\ starts_with (T "#") s = false).
Proof.
  intros F R. unfold collect_specs. rewrite F, R. eexists. split; [reflexivity|]. intros s. rewrite filter_In, in_map_iff. split.
  - intros ((x & <- & X) & H). apply andb_true_iff in H as [H1 H2]. exists x. split; [exact X|]. split; [reflexivity|]. split; [destruct (trim x); [discriminate|discriminate]|apply negb_true_iff, H2].
  - intros (x & X & -> & H1 & H2). split; [exists x; split; [reflexivity|exact X]|]. rewrite H2. destruct (trim x); [contradiction|reflexivity].
Qed.
(** ** Characters of names *)
Lemma trim_start_in p c : forall k s, In c (trim_start_text k p s) -> In c s.
Proof.
  induction k as [|k IH]; intros s H; cbn [trim_start_text] in H; [exact H|]. destruct (strip_prefix p s) as [r|] eqn:E; [|exact H].
  apply IH in H. unfold strip_prefix in E. destruct (starts_with p s) eqn:Y; [|discriminate]. apply starts_with_spec in Y as [z ->]. injection E as <-. rewrite skipn_app, skipn_all, Nat.sub_diag in H. apply in_or_app. right. exact H.
Qed.
Lemma last_split_in x s a b c : last_split x s = Some (a, b) -> In c a -> In c s.
Proof.
  revert a b. induction s as [|y s IH]; intros a b E H; cbn [last_split] in E; [discriminate|]. destruct (last_split x s) as [[a' b']|].
  - injection E as <- <-. destruct H as [->|H]; [left; reflexivity|right; exact (IH _ _ eq_refl H)].
  - destruct (Ascii.eqb y x); [injection E as <- <-; destruct H|discriminate].
Qed.
Lemma dist_info_in e n v c : dist_info e = Some (n, v) -> In c n -> In c e.
Proof.
  unfold dist_info, trim_end_text. destruct (ends_with _ e); [|discriminate]. intros E H. apply (last_split_in _ _ _ _ _ E) in H. apply in_rev in H. apply trim_start_in in H. apply in_rev, H.
Qed.
Lemma cli_bracket m : In "["%char (cli_name m) <-> In "["%char m.
Proof.
  unfold cli_name, swap, lower. rewrite map_map, in_map_iff. split; [|intros H; exists "["%char; split; [reflexivity|exact H]].
  intros (x & E & H). replace "["%char with x; [exact H|]. revert E. destruct x as [[] [] [] [] [] [] [] []]; vm_compute; intros E; first [reflexivity|discriminate E].
Qed.
