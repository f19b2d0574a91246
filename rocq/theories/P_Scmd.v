(** Theorems about the suite commands. *)
From Verif Require Import Base Base_lemmas Maps Sorting Order_spec Suite_model Suite_spec Suite_proofs Codec P_Suite Scmd_model Scmd_spec Scmd_proofs.
Open Scope string_scope. Open Scope list_scope.

(** a session with a suite: the library of P_Suite, an empty disk *)
Definition W := enc file_codec.
Definition R := read_all file_codec.
Definition made : list command :=
  [Create (T "/s") (Some (T "tools")) (T "First"); AddContext (mkAdd (T "/s") (T "maya") [T "maya-2024"] (Some (T "m_")) 5);
   AddContext (mkAdd (T "/s") (T "nuke") [T "nuke-15"] None 0); AliasTool (T "/s") (T "maya") (T "view") (T "mview");
   AliasTool (T "/s") (T "nuke") (T "view") (T "nview"); AliasTool (T "/s") (T "nuke") (T "edit") (T "nedit")].

(** ** C313 *)
(** A command does to the suite what it says, or fails and writes nothing. *)
Theorem C313_effect : forall write read c d ok d', faithful write read -> execute write read c d = (ok, d') ->
  (ok = true <-> exists s', step c (load read (target c) d) s') /\
  (ok = true -> exists s' s'', step c (load read (target c) d) s' /\ load read (target c) d' = Some s'' /\ same_suite s' s'') /\
  (ok = false -> d' = d).
Proof.
  intros w r c d ok d' F E. destruct (execute_step w r c d) as [(s' & X & E')|[N E']]; rewrite E in E'; injection E' as -> ->.
  - split; [split; [eauto|reflexivity]|]. split; [|discriminate]. intros _. destruct (load_saved w r (target c) s' d F) as (s'' & L & S''). eauto.
  - split; [split; [discriminate|intros (s' & X); destruct (N s' X)]|]. split; [discriminate|reflexivity].
Qed.
Print Assumptions C313_effect.
(** What a command makes of a suite is determined, so the above says what is loaded. *)
Theorem C313_determined : forall c o s s', step c o s -> step c o s' -> s = s'.
Proof.
  intros c o s s' X Y. destruct o as [s0|].
  - destruct c as [p x t|a|p n|p n a t|p n t].
    + inversion X; inversion Y; subst. f_equal. match goal with H : map to_lower t = mode_text ?m, K : map to_lower t = mode_text ?m' |- _ => rewrite H in K; destruct m, m'; try reflexivity; discriminate K end.
    + apply add_step in X. apply add_step in Y. congruence.
    + apply remove_step in X. apply remove_step in Y. congruence.
    + apply alias_step in X. apply alias_step in Y. congruence.
    + apply hide_step in X. apply hide_step in Y. congruence.
  - inversion X; subst. inversion Y; subst. f_equal. match goal with H : map to_lower ?t = mode_text ?m, K : map to_lower ?t = mode_text ?m' |- _ => rewrite H in K; destruct m, m'; try reflexivity; discriminate K end.
Qed.
Print Assumptions C313_determined.
(** Other files and other suites stay as they are, whatever the commands. *)
Theorem C313_others : forall write read c d q, q <> yaml_path (target c) -> q <> marker_path (target c) -> aget q (snd (execute write read c d)) = aget q d.
Proof. intros w r c d q. apply execute_files. Qed.
Print Assumptions C313_others.
Theorem C313_session : forall write read l p d, (forall c, In c l -> target c <> p) -> load read p (snd (session write read l d)) = load read p d.
Proof. intros w r l p d H. apply session_others, H. Qed.
Print Assumptions C313_session.
Example C313_example : faithful W R /\ fst (session W R made [(T "/other", T "x")]) = [true; true; true; true; true; true] /\
  aget (T "/other") (snd (session W R made [(T "/other", T "x")])) = Some (T "x") /\
  fst (execute W R (RemoveContext (T "/s") (T "houdini")) (snd (session W R made []))) = false /\ fst (execute W R (HideTool (T "/s") (T "maya") (T "mview")) (snd (session W R made []))) = true.
Proof. split; [exact codec_faithful|]. vm_compute. auto. Qed.

(** ** C314 *)
(** Commands given one after another, each reading and writing the file, do what the same changes of one suite in memory do, and the same
    commands fail. *)
Theorem C314_memory : forall write read p l d, faithful write read -> (forall c, In c l -> target c = p) -> (forall s, load read p d = Some s -> sound s) ->
  exists o, steps l (fst (session write read l d)) (load read p d) o /\ alike o (load read p (snd (session write read l d))).
Proof.
  intros w r p l d F H P. apply session_steps; [exact F|exact H| |exact P]. destruct (load r p d) as [s|]; cbn [alike]; [|exact I].
  split; [apply same_ctxs_refl|split; reflexivity].
Qed.
Print Assumptions C314_memory.
Example C314_example : (forall c, In c made -> target c = T "/s") /\ load R (T "/s") [] = None /\
  exists s, load R (T "/s") (snd (session W R made [])) = Some s /\ map sc_name (su_contexts s) = [T "maya"; T "nuke"] /\ map sc_prefix (su_contexts s) = [Some (T "m_"); None] /\ su_mode s = MFirst.
Proof.
  split; [intros c H; cbn in H; repeat (destruct H as [<-|H]; [reflexivity|]); destruct H|]. split; [reflexivity|]. eexists. split; [vm_compute; reflexivity|]. vm_compute. auto.
Qed.

(** ** C315 *)
(** Suites made with the commands keep distinct good names and proper aliases, and no command makes a suite unreadable. *)
Theorem C315_sound : forall write read l d, faithful write read -> (forall p s, load read p d = Some s -> sound s) ->
  forall p s, load read p (snd (session write read l d)) = Some s -> sound s.
Proof. intros w r l d F H. exact (session_sound w r F l d H). Qed.
Print Assumptions C315_sound.
Theorem C315_readable : forall write read l d p, faithful write read -> load read p d <> None -> load read p (snd (session write read l d)) <> None.
Proof. intros w r l d p F H. exact (session_keeps w r F l p d H). Qed.
Print Assumptions C315_readable.
Example C315_example : (forall p s, load R p [] = Some s -> sound s) /\ load R (T "/s") (snd (session W R made [])) <> None /\
  fst (execute W R (AddContext (mkAdd (T "/s") (T "maya") [] None 0)) (snd (session W R made []))) = false /\ fst (execute W R (AddContext (mkAdd (T "/s") (T "a b") [] None 0)) (snd (session W R made []))) = false.
Proof. split; [discriminate|]. split; [intros E; vm_compute in E; discriminate E|]. vm_compute. auto. Qed.

(** ** C316 *)
(** Creating a suite where there is one does not fail: its contexts are gone. *)
Theorem C316_refuted : forall write read p x t d d' s, faithful write read -> load read p d = Some s -> execute write read (Create p x t) d = (true, d') ->
  exists s', load read p d' = Some s' /\ su_contexts s' = [] /\ su_desc s' = x.
Proof.
  intros w r p x t d d' s F _ E. destruct (C313_effect w r (Create p x t) d true d' F E) as (_ & K & _). destruct (K eq_refl) as (s1 & s2 & X & L & (A & B & _)). exists s2. split; [exact L|].
  inversion X; subst. cbn [su_contexts su_desc] in A, B. inversion A. auto.
Qed.
Print Assumptions C316_refuted.
(** It succeeds for the four modes in any case of letters, and only for them; where there was no suite nothing is lost. *)
Theorem C316_mode_partial : forall write read p x t d, fst (execute write read (Create p x t) d) = true <-> exists m, map to_lower t = mode_text m.
Proof.
  intros w r p x t d. destruct (execute_step w r (Create p x t) d) as [(s' & X & ->)|[N ->]]; cbn [fst].
  - split; [|reflexivity]. intros _. inversion X; subst. eauto.
  - split; [discriminate|]. intros (m & M). destruct (N (mkSuite [] x m)). constructor. exact M.
Qed.
Print Assumptions C316_mode_partial.
Theorem C316_new_partial : forall write read p x t d q, load read p d = None -> load read q d <> None -> load read q (snd (execute write read (Create p x t) d)) = load read q d.
Proof. intros w r p x t d q N H. apply execute_others. cbn [target]. congruence. Qed.
Print Assumptions C316_new_partial.
Example C316_example : exists s d', load R (T "/s") (snd (session W R made [])) = Some s /\ length (su_contexts s) = 2 /\
  execute W R (Create (T "/s") None (T "error")) (snd (session W R made [])) = (true, d') /\ load R (T "/s") d' = Some (mkSuite [] None MError) /\
  fst (execute W R (Create (T "/z") None (T "newest")) (snd (session W R made []))) = false.
Proof. eexists. eexists. split; [vm_compute; reflexivity|]. split; [vm_compute; reflexivity|]. split; [vm_compute; reflexivity|]. split; vm_compute; reflexivity. Qed.

(** ** C317 *)
(** The priority given for a new context is not used: the context has priority zero. *)
Theorem C317_refuted : forall write read a z d d', faithful write read -> execute write read (AddContext a) d = (true, d') ->
  execute write read (AddContext (mkAdd (a_suite a) (a_name a) (a_requests a) (a_prefix a) z)) d = (true, d') /\
  exists s c, load read (a_suite a) d' = Some s /\ In c (su_contexts s) /\ sc_name c = a_name a /\ sc_priority c = 0%Z.
Proof.
  intros w r a z d d' F E. split; [rewrite <- E; destruct a; reflexivity|].
  destruct (C313_effect w r (AddContext a) d true d' F E) as (_ & K & _). destruct (K eq_refl) as (s1 & s2 & X & L & (A & _ & _)). cbn [target] in X, L.
  inversion X as [|? s0 G N| | |]; subst. cbn [su_contexts] in A. apply Forall2_app_inv_l in A. destruct A as (u & v & _ & V & A). inversion V as [|? c ? v' C V']; subst.
  exists s2, c. split; [exact L|]. split; [rewrite A; apply in_app_iff; right; left; reflexivity|]. destruct C as (C1 & _ & _ & _ & _ & C6 & _). cbn in C1, C6. auto.
Qed.
Print Assumptions C317_refuted.
(** The requests and the prefix are used, and the context comes last, with no tools. *)
Theorem C317_added_partial : forall write read a d d', faithful write read -> execute write read (AddContext a) d = (true, d') ->
  exists s s' u c, load read (a_suite a) d = Some s /\ load read (a_suite a) d' = Some s' /\ su_contexts s' = u ++ [c] /\ Forall2 same_ctx (su_contexts s) u /\
    sc_name c = a_name a /\ sc_requests c = a_requests a /\ sc_prefix c = a_prefix a /\ sc_aliases c = [] /\ sc_hidden c = [] /\ sc_disabled c = false.
Proof.
  intros w r a d d' F E. destruct (C313_effect w r (AddContext a) d true d' F E) as (_ & K & _). destruct (K eq_refl) as (s1 & s2 & X & L & (A & _ & _)). cbn [target] in X, L.
  inversion X as [|? s0 G N E0 E1| | |]; subst. cbn [su_contexts] in A. apply Forall2_app_inv_l in A. destruct A as (u & v & U & V & A). inversion V as [|? c ? v' C V']; subst. inversion V'; subst.
  exists s0, s2, u, c. split; [reflexivity|]. split; [exact L|]. split; [exact A|]. split; [exact U|]. destruct C as (C1 & C2 & C3 & C4 & C5 & C6 & C7). cbn in *.
  apply Permutation_nil in C3. repeat split; congruence.
Qed.
Print Assumptions C317_added_partial.
Example C317_example : exists s, load R (T "/s") (snd (session W R made [])) = Some s /\ map sc_priority (su_contexts s) = [0%Z; 0%Z].
Proof. eexists. split; vm_compute; reflexivity. Qed.

(** ** C318 *)
(** The rows printed for a suite do not depend on the order of the maps, unless clashes are named by prefix. *)
Theorem C318_order_partial : forall read ord ord' mo mo' p d s rows, every_order ord -> every_order ord' -> any_order mo -> any_order mo' ->
  load read p d = Some s -> proper (su_contexts s) -> su_mode s <> MPrefix -> cmd_tools read ord mo p d = Some rows -> cmd_tools read ord' mo' p d = Some rows.
Proof.
  intros r ord ord' mo mo' p d s rows O O' M M' L P N. unfold cmd_tools. rewrite L. destruct (get_tools ord s) as [m|] eqn:G; [|discriminate]. intros [= <-].
  destruct (table_order ord ord' s m O O' P N G) as (m' & G' & H). rewrite G'. do 2 f_equal. symmetry.
  assert (Wm := tools_named _ _ _ G). assert (Wm' := tools_named _ _ _ G').
  apply rows_unique; [rewrite (Permutation_map st_name (M (map snd m))), (names_of m Wm); exact (proj1 Wm)|].
  rewrite (M (map snd m)), (M' (map snd m')). apply Permutation_map, same_table; assumption.
Qed.
Print Assumptions C318_order_partial.
(** They are the tools of the suite, each once, and sorted by name. *)
Theorem C318_rows : forall read ord mo p d s m, any_order mo -> load read p d = Some s -> get_tools ord s = Tools m ->
  exists rows, cmd_tools read ord mo p d = Some rows /\
    (forall n c k, In (n, c, k) rows <-> exists t, aget n m = Some t /\ st_context t = c /\ st_package t = k) /\
    NoDup (map (fun x => fst (fst x)) rows) /\
    forall u x v y w, rows = u ++ x :: v ++ y :: w -> text_cmp (fst (fst x)) (fst (fst y)) <> Gt.
Proof.
  intros r ord mo p d s m M L G. unfold cmd_tools. rewrite L, G. eexists. split; [reflexivity|]. assert (Wm := tools_named _ _ _ G). change (fun x y => text_cmp (st_name x) (st_name y)) with by_name. split; [|split].
  - intros n c k. rewrite in_map_iff. split.
    + intros (t & [= <- <- <-] & I). apply sort_in in I. apply (Permutation_in _ (M _)) in I. apply in_map_iff in I. destruct I as ([k' t'] & E & I). cbn in E. subst t'. exists t. split; [|auto].
      apply aget_nodup; [exact (proj1 Wm)|]. rewrite (proj2 Wm k' t I). exact I.
    + intros (t & A & <- & <-). apply aget_in in A. exists t. split; [rewrite (proj2 Wm n t A); reflexivity|]. apply sort_in. apply (Permutation_in _ (Permutation_sym (M _))). apply in_map_iff. exists (n, t). auto.
  - rewrite map_map. cbn [fst]. rewrite (Permutation_map st_name (sort_perm by_name (mo (map snd m)))), (Permutation_map st_name (M (map snd m))), (names_of m Wm). exact (proj1 Wm).
  - intros u x v y w E. assert (K : sorted_by by_name (sort_by by_name (mo (map snd m)))) by (apply (sort_sorted by_name (fun _ => True) by_name_TPO); apply Forall_forall; auto).
    apply map_eq_app in E. destruct E as (u1 & r1 & E1 & _ & E). apply map_eq_cons in E. destruct E as (x1 & r2 & -> & <- & E). apply map_eq_app in E. destruct E as (v1 & r3 & -> & _ & E). apply map_eq_cons in E. destruct E as (y1 & w1 & -> & <- & _).
    cbn [fst]. exact (K u1 x1 v1 y1 w1 E1).
Qed.
Print Assumptions C318_rows.
(** With prefixes the rows can depend on it: the commands below make such a suite. *)
Definition clashing : list command :=
  [Create (T "/s") None (T "prefix"); AddContext (mkAdd (T "/s") (T "a") [] None 0); AliasTool (T "/s") (T "a") (T "x") (T "ax");
   AddContext (mkAdd (T "/s") (T "b") [] None 0); AliasTool (T "/s") (T "b") (T "x") (T "bx"); AliasTool (T "/s") (T "b") (T "b_x") (T "bbx")].
Theorem C318_order_refuted : exists l rows rows', (forall b, In b (fst (session W R l [])) -> b = true) /\ cmd_tools R plain_order (fun l => l) (T "/s") (snd (session W R l [])) = Some rows /\ cmd_tools R back_order (fun l => l) (T "/s") (snd (session W R l [])) = Some rows' /\ length rows <> length rows'.
Proof.
  exists clashing. eexists. eexists. split; [|split; [vm_compute; reflexivity|split; [vm_compute; reflexivity|discriminate]]].
  assert (E : fst (session W R clashing []) = [true; true; true; true; true; true]) by (vm_compute; reflexivity). rewrite E. intros b H. cbn in H. intuition congruence.
Qed.
Print Assumptions C318_order_refuted.
Example C318_example : exists s, load R (T "/s") (snd (session W R made [])) = Some s /\ proper (su_contexts s) /\ su_mode s <> MPrefix /\
  cmd_tools R plain_order (fun l => l) (T "/s") (snd (session W R made [])) = Some [(T "edit", T "nuke", T "nuke-15"); (T "view", T "maya", T "maya-2024")].
Proof.
  eexists. split; [vm_compute; reflexivity|]. split; [intros c [<-|[<-|[]]]; cbn; repeat constructor; cbn; intuition discriminate|]. split; [discriminate|]. vm_compute. reflexivity.
Qed.
