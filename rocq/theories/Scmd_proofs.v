(** Proofs about the suite commands. *)
From Verif Require Import Base Base_lemmas Maps Sorting Order_spec Order_proofs Suite_model Suite_spec Suite_proofs Suite_edits Scmd_model Scmd_spec.
Open Scope char_scope.

(** ** One command *)
Lemma hd_modify n f cs c : (forall x, In x cs -> sc_name x <> n) -> sc_name c = n -> modify_first n f (cs ++ [c]) = Some (cs ++ [f c]).
Proof.
  intros H E. apply modify_first_some. exists cs, c, []. repeat split; auto.
Qed.
Lemma add_step a s s' : add_with_prefix a s = Some s' <-> step (AddContext a) (Some s) s'.
Proof.
  unfold add_with_prefix. assert (N := add_context_none (a_name a) (a_requests a) s).
  destruct (add_context (a_name a) (a_requests a) s) as [t|] eqn:E.
  - assert (G : good_name (a_name a)).
    { unfold add_context in E. destruct (valid_name (a_name a)) eqn:V; [|discriminate]. apply valid_good, V. }
    assert (H : ~ has_context (a_name a) s) by (intros H; assert (K : Some t = None) by (apply N; right; exact H); discriminate K).
    assert (Et : t = set_contexts s (su_contexts s ++ [new_ctx (a_name a) (a_requests a)])).
    { unfold add_context in E. destruct (negb _); [discriminate|]. destruct (existsb _ _); [discriminate|]. congruence. }
    assert (K : (match a_prefix a with
      | Some x => match modify_context (a_name a) (ctx_prefix x) t with Some s'' => Some s'' | None => Some t end
      | None => Some t end) = Some (mkSuite (su_contexts s ++ [mkSctx (a_name a) (a_requests a) [] [] (a_prefix a) 0 false]) (su_desc s) (su_mode s))).
    { subst t. destruct (a_prefix a) as [x|]; [|reflexivity]. unfold modify_context. cbn [set_contexts su_contexts su_desc su_mode].
      rewrite (hd_modify (a_name a)); [reflexivity| |reflexivity]. intros c C Ec. apply H. exists c. auto. }
    rewrite K. split.
    + intros [= <-]. constructor; assumption.
    + intros X. inversion X; subst. reflexivity.
  - split; [discriminate|]. intros X. inversion X; subst. destruct (proj1 N eq_refl); contradiction.
Qed.
Lemma remove_step p n s s' : remove_context n s = Some s' <-> step (RemoveContext p n) (Some s) s'.
Proof.
  unfold remove_context. split.
  - destruct (remove_first n (su_contexts s)) as [cs|] eqn:E; [|discriminate]. intros [= <-]. apply remove_first_some in E. destruct E as (u & c & v & A & B & C & D).
    destruct s as [cx x m]. cbn [su_contexts set_contexts su_desc su_mode] in *. subst. constructor. exact D.
  - intros X. inversion X; subst. cbn [su_contexts]. assert (K : remove_first (sc_name c) (u ++ c :: v) = Some (u ++ v)) by (apply remove_first_some; exists u, c, v; repeat split; auto). rewrite K. reflexivity.
Qed.
Lemma alias_step p n a t s s' : alias_tool n a t s = Some s' <-> step (AliasTool p n a t) (Some s) s'.
Proof.
  unfold alias_tool, modify_context. split.
  - destruct (modify_first n (ctx_alias a t) (su_contexts s)) as [cs|] eqn:E; [|discriminate]. intros [= <-]. apply modify_first_some in E. destruct E as (u & c & v & A & B & C & D).
    destruct s as [cx x m]. cbn [su_contexts set_contexts su_desc su_mode] in *. subst. constructor. exact D.
  - intros X. inversion X; subst. cbn [su_contexts].
    assert (K : modify_first (sc_name c) (ctx_alias a t) (u ++ c :: v) = Some (u ++ ctx_alias a t c :: v)) by (apply modify_first_some; exists u, c, v; repeat split; auto). rewrite K. reflexivity.
Qed.
Lemma hide_step p n t s s' : hide_tool n t s = Some s' <-> step (HideTool p n t) (Some s) s'.
Proof.
  unfold hide_tool, modify_context. split.
  - destruct (modify_first n (ctx_hide t) (su_contexts s)) as [cs|] eqn:E; [|discriminate]. intros [= <-]. apply modify_first_some in E. destruct E as (u & c & v & A & B & C & D).
    destruct s as [cx x m]. cbn [su_contexts set_contexts su_desc su_mode] in *. subst. unfold ctx_hide. constructor; [exact D| |].
    + intros H. apply mem_in in H. rewrite H. reflexivity.
    + intros H. destruct (mem_text t (sc_hidden c)) eqn:M; [|reflexivity]. destruct H. apply mem_in, M.
  - intros X. inversion X as [| | | |? ? u c v x m h D H1 H2]; subst. cbn [su_contexts].
    assert (K : modify_first (sc_name c) (ctx_hide t) (u ++ c :: v) = Some (u ++ ctx_hide t c :: v)) by (apply modify_first_some; exists u, c, v; repeat split; auto). rewrite K.
    unfold set_contexts, ctx_hide. cbn [su_desc su_mode]. destruct (mem_text t (sc_hidden c)) eqn:M.
    + rewrite H1 by (apply mem_in, M). reflexivity.
    + rewrite H2 by (intros Y; apply mem_in in Y; congruence). reflexivity.
Qed.
Lemma no_step c s' : step c None s' -> exists p x t, c = Create p x t.
Proof. intros X. inversion X; subst. eauto. Qed.

Section Disk.
Variable write : suite_file -> text.
Variable read : text -> option suite_file.
Hypothesis F : faithful write read.

(** all commands alike: the outcome is decided by [step], and on success the suite is saved *)
Lemma execute_step c d : (exists s', step c (load read (target c) d) s' /\ execute write read c d = (true, save write (target c) s' d)) \/
  ((forall s', ~ step c (load read (target c) d) s') /\ execute write read c d = (false, d)).
Proof.
  assert (K : forall f : suite -> option suite, execute write read c d = change write read (target c) f d -> (forall s s', f s = Some s' <-> step c (Some s) s') -> (forall s', ~ step c None s') ->
    (exists s', step c (load read (target c) d) s' /\ execute write read c d = (true, save write (target c) s' d)) \/ ((forall s', ~ step c (load read (target c) d) s') /\ execute write read c d = (false, d))).
  { intros f E H N. rewrite E. unfold change. destruct (load read (target c) d) as [s|]; [|right; auto]. destruct (f s) as [s'|] eqn:X.
    - left. exists s'. split; [apply H, X|reflexivity].
    - right. split; [|reflexivity]. intros s' S'. apply H in S'. congruence. }
  destruct c as [p x t|a|p n|p n a t|p n t]; cbn [target].
  - cbn [execute]. unfold cmd_create. destruct (parse_mode t) as [m|] eqn:M.
    + left. eexists. split; [constructor; apply parse_mode_some; exact M|reflexivity].
    + right. split; [|reflexivity]. intros s' X. inversion X; subst. match goal with H : map to_lower t = _ |- _ => apply parse_mode_some in H; congruence end.
  - apply (K (add_with_prefix a)); [reflexivity|intros; apply add_step|intros s' X; inversion X].
  - apply (K (remove_context n)); [reflexivity|intros; apply remove_step|intros s' X; inversion X].
  - apply (K (alias_tool n a t)); [reflexivity|intros; apply alias_step|intros s' X; inversion X].
  - apply (K (hide_tool n t)); [reflexivity|intros; apply hide_step|intros s' X; inversion X].
Qed.
Lemma execute_files c d q : q <> yaml_path (target c) -> q <> marker_path (target c) -> aget q (snd (execute write read c d)) = aget q d.
Proof.
  intros A B. destruct (execute_step c d) as [(s' & _ & ->)|[_ ->]]; cbn [snd]; [|reflexivity]. apply saved_others; assumption.
Qed.
Lemma execute_others c d q : q <> target c -> load read q (snd (execute write read c d)) = load read q d.
Proof. intros N. destruct (execute_step c d) as [(s' & _ & ->)|[_ ->]]; cbn [snd]; [|reflexivity]. apply load_others. congruence. Qed.

(** ** What is preserved *)
Lemma same_names s t : same_suite s t -> map sc_name (su_contexts s) = map sc_name (su_contexts t).
Proof. intros (H & _). induction H as [|c c' l l' E _ IH]; [reflexivity|]. cbn. rewrite IH, (proj1 E). reflexivity. Qed.
Lemma step_sound c o s' : (forall s, o = Some s -> sound s) -> step c o s' -> sound s'.
Proof.
  intros H X. destruct o as [s|].
  - specialize (H s eq_refl). destruct c as [p x t|a|p n|p n a t|p n t].
    + inversion X; subst. split; [constructor|]. split; intros c [].
    + inversion X as [|? ? G N| | |]; subst. destruct H as (A & B & C). split; [|split].
      * cbn [su_contexts]. rewrite map_app. cbn [map sc_name]. apply (Permutation_NoDup (Permutation_cons_append _ _)). constructor; [|exact A].
        intros I. apply in_map_iff in I. destruct I as (c & E & I). apply N. exists c. auto.
      * cbn [su_contexts]. intros c I. apply in_app_iff in I. destruct I as [I|[<-|[]]]; [apply B, I|exact G].
      * cbn [su_contexts]. intros c I. apply in_app_iff in I. destruct I as [I|[<-|[]]]; [apply C, I|constructor].
    + inversion X as [| |? u c v x m D| |]; subst. destruct H as (A & B & C). cbn [su_contexts] in *. split; [|split].
      * cbn [su_contexts]. rewrite map_app in *. cbn [map] in A. apply NoDup_remove_1 in A. exact A.
      * cbn [su_contexts]. intros y I. apply B. apply in_app_iff in I. apply in_app_iff. cbn. tauto.
      * cbn [su_contexts]. intros y I. apply C. apply in_app_iff in I. apply in_app_iff. cbn. tauto.
    + apply alias_step in X. apply (fine_modify n (ctx_alias a t) s s'); [|exact X|exact H]. intros c. split; [reflexivity|]. cbn. apply nodup_put.
    + apply hide_step in X. apply (fine_modify n (ctx_hide t) s s'); [|exact X|exact H]. intros c. split; [reflexivity|]. cbn. auto.
  - inversion X; subst. split; [constructor|]. split; intros c [].
Qed.
Definition all_sound (d : disk) : Prop := forall p s, load read p d = Some s -> sound s.
Lemma execute_sound c d : all_sound d -> all_sound (snd (execute write read c d)).
Proof.
  intros H p s L. destruct (text_eqb_spec p (target c)) as [->|N]; [|rewrite execute_others in L by exact N; exact (H p s L)].
  destruct (execute_step c d) as [(s' & X & E)|[_ E]]; rewrite E in L; cbn [snd] in L; [|exact (H _ _ L)].
  destruct (load_saved write read (target c) s' d F) as (s2 & L2 & S2). rewrite L in L2. injection L2 as <-. apply (same_fine s' s S2). apply (step_sound c (load read (target c) d)); [|exact X].
  intros s0 E0. exact (H _ _ E0).
Qed.
Lemma execute_keeps c d p : load read p d <> None -> load read p (snd (execute write read c d)) <> None.
Proof.
  intros H. destruct (text_eqb_spec p (target c)) as [->|N]; [|rewrite execute_others by exact N; exact H].
  destruct (execute_step c d) as [(s' & X & ->)|[_ ->]]; cbn [snd]; [|exact H]. destruct (load_saved write read (target c) s' d F) as (s2 & L2 & _). congruence.
Qed.
Lemma session_cons c l d : session write read (c :: l) d = (fst (execute write read c d) :: fst (session write read l (snd (execute write read c d))), snd (session write read l (snd (execute write read c d)))).
Proof. cbn [session]. destruct (execute write read c d) as [ok d']. cbn [fst snd]. destruct (session write read l d'). reflexivity. Qed.
Lemma session_sound l : forall d, all_sound d -> all_sound (snd (session write read l d)).
Proof. induction l as [|c l IH]; intros d H; [exact H|]. rewrite session_cons. cbn [snd]. apply IH, execute_sound, H. Qed.
Lemma session_keeps l p : forall d, load read p d <> None -> load read p (snd (session write read l d)) <> None.
Proof. induction l as [|c l IH]; intros d H; [exact H|]. rewrite session_cons. cbn [snd]. apply IH, execute_keeps, H. Qed.
Lemma session_others l p : (forall c, In c l -> target c <> p) -> forall d, load read p (snd (session write read l d)) = load read p d.
Proof.
  induction l as [|c l IH]; intros H d; [reflexivity|]. rewrite session_cons. cbn [snd]. rewrite IH by (intros x X; apply H; right; exact X).
  apply execute_others. intros E. apply (H c (or_introl eq_refl)). congruence.
Qed.

(** ** Commands and calls in memory *)
Lemma same_ctx_sym c c' : same_ctx c c' -> same_ctx c' c.
Proof. intros (A & B & C & D & E & G & H). repeat split; try (symmetry; assumption). Qed.
Lemma same_ctx_trans a b c : same_ctx a b -> same_ctx b c -> same_ctx a c.
Proof.
  intros (A & B & C & D & E & G & H) (A' & B' & C' & D' & E' & G' & H'). unfold same_ctx. repeat split; try (etransitivity; eassumption).
Qed.
Lemma same_sym s t : same_suite s t -> same_suite t s.
Proof.
  intros (H & D & M). split; [|split; symmetry; assumption]. clear D M. induction H as [|c c' l l' E _ IH]; constructor; [apply same_ctx_sym, E|exact IH].
Qed.
Lemma same_trans a b c : same_suite a b -> same_suite b c -> same_suite a c.
Proof.
  intros (H & D & M) (H' & D' & M'). split; [|split; etransitivity; eassumption]. clear D M D' M'. revert H'. generalize (su_contexts c). induction H as [|x y l l' E _ IH]; intros z Z.
  - inversion Z. constructor.
  - inversion Z as [|? w ? z' E' Z']; subst. constructor; [exact (same_ctx_trans _ _ _ E E')|apply IH, Z'].
Qed.
Lemma aput_perm (k v : text) l l' : NoDup (akeys l) -> Permutation l l' -> Permutation (aput k v l) (aput k v l').
Proof.
  intros N P. assert (N' : NoDup (akeys l')) by (apply (Permutation_NoDup (Permutation_map fst P)), N).
  apply NoDup_Permutation; [apply (NoDup_map_inv fst), nodup_put, N|apply (NoDup_map_inv fst), nodup_put, N'|]. intros [x y]. rewrite !aput_in by assumption.
  split; (intros [H|[H I]]; [left; exact H|right; split; [exact H|]]); [apply (Permutation_in _ P), I|apply (Permutation_in _ (Permutation_sym P)), I].
Qed.
Lemma same_context n s t : same_suite s t -> has_context n s -> has_context n t.
Proof.
  intros E (c & I & N). assert (K : In n (map sc_name (su_contexts s))) by (apply in_map_iff; exists c; auto). rewrite (same_names s t E) in K. apply in_map_iff in K. destruct K as (c' & N' & I'). exists c'. auto.
Qed.
Lemma same_split u c v t : Forall2 same_ctx (u ++ c :: v) t -> (forall y, In y u -> sc_name y <> sc_name c) ->
  exists u' c' v', t = u' ++ c' :: v' /\ Forall2 same_ctx u u' /\ same_ctx c c' /\ Forall2 same_ctx v v' /\ (forall y, In y u' -> sc_name y <> sc_name c').
Proof.
  intros H D. apply Forall2_app_inv_l in H. destruct H as (u' & r & U & R & ->). inversion R as [|? c' ? v' E V]; subst. exists u', c', v'. repeat (split; [auto|]).
  rewrite <- (proj1 E). clear R E V. induction U as [|x y l l' E _ IH]; [intros z []|intros z [<-|Z]].
  - rewrite <- (proj1 E). apply D. left. reflexivity.
  - apply IH; [|exact Z]. intros w W. apply D. right. exact W.
Qed.
Lemma step_same c s t s' : same_suite s t -> proper (su_contexts s) -> step c (Some s) s' -> exists t', step c (Some t) t' /\ same_suite s' t'.
Proof.
  intros E P X. assert (E0 := E). destruct E as (H & D & M). destruct t as [ct xt mt]. cbn [su_contexts su_desc su_mode] in H, D, M.
  inversion X as [p x tt m o Hm|a s0 G N|p u c0 v x m K|p a tt u c0 v x m K|p tt u c0 v x m h K H1 H2]; subst; cbn [su_contexts su_desc su_mode] in *.
  - eexists. split; [constructor; exact Hm|]. split; [constructor|]. split; reflexivity.
  - eexists. split; [constructor; [exact G|]|].
    + intros K. apply N. apply (same_context _ _ _ (same_sym _ _ E0)), K.
    + split; [|split; reflexivity]. cbn [su_contexts]. apply Forall2_app; [exact H|]. constructor; [|constructor]. unfold same_ctx. repeat split; reflexivity.
  - apply same_split in H; [|exact K]. destruct H as (u' & c' & v' & -> & U & C & V & K'). rewrite (proj1 C). eexists. split; [constructor; exact K'|].
    split; [|split; reflexivity]. cbn [su_contexts]. apply Forall2_app; assumption.
  - apply same_split in H; [|exact K]. destruct H as (u' & c' & v' & -> & U & C & V & K'). rewrite (proj1 C). eexists. split; [constructor; exact K'|].
    split; [|split; reflexivity]. cbn [su_contexts]. apply Forall2_app; [exact U|]. constructor; [|exact V].
    destruct C as (A1 & A2 & A3 & A4 & A5 & A6 & A7). unfold same_ctx. cbn. repeat split; try assumption; try reflexivity. apply aput_perm; [|exact A3]. apply P, in_app_iff. right. left. reflexivity.
  - apply same_split in H; [|exact K]. destruct H as (u' & c' & v' & -> & U & C & V & K'). rewrite (proj1 C). assert (C0 := C). destruct C as (A1 & A2 & A3 & A4 & A5 & A6 & A7). rewrite A4 in H1, H2. eexists. split; [apply step_hide with (h := h); assumption|].
    split; [|split; reflexivity]. cbn [su_contexts]. apply Forall2_app; [exact U|]. constructor; [|exact V].
    unfold same_ctx. cbn. repeat split; try assumption; reflexivity.
Qed.
Lemma alike_step c o o' s' : alike o o' -> (forall s, o = Some s -> sound s) -> step c o s' -> exists t', step c o' t' /\ same_suite s' t'.
Proof.
  intros A P X. destruct o as [s|], o' as [t|]; cbn [alike] in A; try contradiction.
  - exact (step_same c s t s' A (proj2 (proj2 (P s eq_refl))) X).
  - exists s'. split; [exact X|]. split; [|split; reflexivity]. induction (su_contexts s') as [|x l IH]; constructor; [|exact IH]. unfold same_ctx. repeat split; reflexivity.
Qed.
Lemma alike_sym o o' : alike o o' -> alike o' o.
Proof. destruct o, o'; cbn [alike]; auto. apply same_sym. Qed.
Lemma session_steps p l : (forall c, In c l -> target c = p) -> forall d o, alike o (load read p d) -> (forall s, o = Some s -> sound s) ->
  exists o', steps l (fst (session write read l d)) o o' /\ alike o' (load read p (snd (session write read l d))).
Proof.
  induction l as [|c l IH]; intros Ht d o A P; [exists o; split; [constructor|exact A]|]. rewrite session_cons. cbn [fst snd].
  assert (Hl : forall x, In x l -> target x = p) by (intros x X; apply Ht; right; exact X). assert (Hc : target c = p) by (apply Ht; left; reflexivity).
  assert (P' : forall s, load read p d = Some s -> sound s).
  { intros s E. rewrite E in A. destruct o as [s0|]; cbn [alike] in A; [|contradiction]. exact (same_fine s0 s A (P s0 eq_refl)). }
  destruct (execute_step c d) as [(s' & X & E)|[N E]]; rewrite Hc in *; rewrite E; cbn [fst snd].
  - destruct (alike_step c _ o s' (alike_sym _ _ A) P' X) as (t' & X' & S').
    destruct (load_saved write read p s' d F) as (s2 & L2 & S2).
    destruct (IH Hl (save write p s' d) (Some t')) as (o' & Y & Z).
    + rewrite L2. cbn [alike]. exact (same_trans _ _ _ (same_sym _ _ S') S2).
    + intros s [= <-]. exact (step_sound c o t' P X').
    + exists o'. split; [apply steps_ok with (s' := t'); assumption|exact Z].
  - destruct (IH Hl d o A P) as (o' & Y & Z). exists o'. split; [|exact Z]. apply steps_fail; [|exact Y]. intros s' X. destruct (alike_step c o _ s' A P X) as (t' & X' & _). exact (N t' X').
Qed.
End Disk.

(** ** The rows of the tools *)
Definition well_named (m : list (text * stool)) : Prop := NoDup (akeys m) /\ forall k t, In (k, t) m -> st_name t = k.
Lemma put_named k t m : st_name t = k -> well_named m -> well_named (aput k t m).
Proof.
  intros E [N H]. split; [apply nodup_put, N|]. intros x y I. apply aput_in in I; [|exact N]. destruct I as [[-> ->]|[_ I]]; [exact E|apply H, I].
Qed.
Lemma tool_named md c m a o m' : well_named m -> add_tool md c m a o = Tools m' -> well_named m'.
Proof.
  intros W. unfold add_tool. destruct (aget a m); [destruct md|]; intros [= <-]; try exact W; apply put_named; auto.
Qed.
Lemma aliases_named md c l : forall m m', well_named m -> add_aliases md c l m = Tools m' -> well_named m'.
Proof.
  induction l as [|[a o] l IH]; intros m m' W; cbn [add_aliases]; [intros [= <-]; exact W|]. destruct (visible c o); [|apply IH, W].
  destruct (add_tool md c m a o) as [m1|] eqn:E; [|discriminate]. apply IH. exact (tool_named _ _ _ _ _ _ W E).
Qed.
Lemma contexts_named md ord cs : forall i m m', well_named m -> add_contexts md ord i cs m = Tools m' -> well_named m'.
Proof.
  induction cs as [|c cs IH]; intros i m m' W; cbn [add_contexts]; [intros [= <-]; exact W|]. destruct (sc_disabled c); [apply IH, W|].
  destruct (add_aliases md c (ord i (sc_aliases c)) m) as [m1|] eqn:E; [|discriminate]. apply IH. exact (aliases_named _ _ _ _ _ W E).
Qed.
Lemma tools_named ord s m : get_tools ord s = Tools m -> well_named m.
Proof. apply contexts_named. split; [constructor|intros k t []]. Qed.
Definition by_name (x y : stool) : comparison := text_cmp (st_name x) (st_name y).
Lemma by_name_TPO : TPO (fun _ : stool => True) by_name.
Proof. apply (TPO_map st_name (fun _ => True) text_cmp TPO_text). Qed.
Lemma class_one (l : list stool) a : NoDup (map st_name l) -> filter (fun y => is_eq (by_name a y)) l = match find (fun y => text_eqb (st_name a) (st_name y)) l with Some y => [y] | None => [] end.
Proof.
  induction l as [|y l IH]; intros N; [reflexivity|]. inversion N as [|? ? Ny Nl]; subst. cbn [filter find]. destruct (text_eqb_spec (st_name a) (st_name y)) as [E|E].
  - assert (K : by_name a y = Eq) by (apply text_cmp_eq, E). rewrite K. cbn [is_eq]. f_equal. rewrite (IH Nl).
    destruct (find _ l) as [z|] eqn:Z; [|reflexivity]. apply find_some in Z. destruct Z as [I Z]. apply text_eqb_eq in Z. destruct Ny. rewrite <- E, Z. apply in_map, I.
  - destruct (is_eq (by_name a y)) eqn:K; [|exact (IH Nl)]. destruct E. apply text_cmp_eq. unfold by_name in K. destruct (text_cmp _ _); [reflexivity|discriminate|discriminate].
Qed.
Lemma find_perm (l l' : list stool) x : NoDup (map st_name l) -> Permutation l l' -> find (fun y => text_eqb x (st_name y)) l = find (fun y => text_eqb x (st_name y)) l'.
Proof.
  intros N P. assert (N' : NoDup (map st_name l')) by (apply (Permutation_NoDup (Permutation_map st_name P)), N).
  assert (U : forall r y z, NoDup (map st_name r) -> In y r -> In z r -> st_name y = st_name z -> y = z).
  { clear. induction r as [|w r IH]; intros y z N Y Z E; [destruct Y|]. inversion N as [|? ? Nw Nr]; subst. destruct Y as [<-|Y], Z as [<-|Z]; [reflexivity| | |apply IH; assumption].
    - destruct Nw. rewrite E. apply in_map, Z.
    - destruct Nw. rewrite <- E. apply in_map, Y. }
  destruct (find (fun y => text_eqb x (st_name y)) l) as [y|] eqn:Y, (find (fun y => text_eqb x (st_name y)) l') as [z|] eqn:Z; [| | |reflexivity].
  - apply find_some in Y. apply find_some in Z. destruct Y as [IY EY], Z as [IZ EZ]. apply text_eqb_eq in EY. apply text_eqb_eq in EZ. f_equal.
    apply (U l' y z N'); [apply (Permutation_in _ P), IY|exact IZ|congruence].
  - apply find_some in Y. destruct Y as [IY EY]. assert (K := find_none _ _ Z y (Permutation_in _ P IY)). cbn beta in K. congruence.
  - apply find_some in Z. destruct Z as [IZ EZ]. assert (K := find_none _ _ Y z (Permutation_in _ (Permutation_sym P) IZ)). cbn beta in K. congruence.
Qed.
Lemma rows_unique (l l' : list stool) : NoDup (map st_name l) -> Permutation l l' -> sort_by by_name l = sort_by by_name l'.
Proof.
  intros N P. assert (T1 : forall r : list stool, Forall (fun _ : stool => True) r) by (intros r; apply Forall_forall; auto).
  assert (N' : NoDup (map st_name l')) by (apply (Permutation_NoDup (Permutation_map st_name P)), N).
  apply (stable_sorted_unique by_name (fun _ => True) by_name_TPO); auto.
  - apply (sort_chain by_name (fun _ => True) by_name_TPO), T1.
  - apply (sort_chain by_name (fun _ => True) by_name_TPO), T1.
  - rewrite !sort_perm. exact P.
  - intros a _. rewrite !(sort_stable by_name (fun _ => True) by_name_TPO) by auto. rewrite !class_one by assumption. rewrite (find_perm l l' _ N P). reflexivity.
Qed.
Lemma names_of m : well_named m -> map st_name (map snd m) = akeys m.
Proof.
  intros [_ H]. rewrite map_map. apply map_ext_in. intros [k t] I. exact (H k t I).
Qed.
Lemma same_table m m' : well_named m -> well_named m' -> (forall a, aget a m = aget a m') -> Permutation m m'.
Proof.
  intros [N _] [N' _] H. apply NoDup_Permutation; [apply (NoDup_map_inv fst), N|apply (NoDup_map_inv fst), N'|]. intros [k t]. split; intros I.
  - apply aget_in. rewrite <- H. apply aget_nodup; assumption.
  - apply aget_in. rewrite H. apply aget_nodup; assumption.
Qed.
