(** What the edits of a suite change. *)
From Verif Require Import Base Base_lemmas Maps Order_spec Env_proofs Suite_model Suite_spec Suite_proofs.
From Coq Require Import Lia.

Lemma modify_first_some n f cs cs' : modify_first n f cs = Some cs' <-> exists u c v, cs = u ++ c :: v /\ cs' = u ++ f c :: v /\ sc_name c = n /\ forall x, In x u -> sc_name x <> n.
Proof.
  revert cs'. induction cs as [|x cs IH]; intros cs'; cbn [modify_first].
  - split; [discriminate|]. intros (u & c & v & E & _). destruct u; discriminate.
  - destruct (text_eqb_spec (sc_name x) n) as [E|N].
    + split.
      * intros [= <-]. exists [], x, cs. repeat split; auto; intros y [].
      * intros (u & c & v & E1 & -> & E2 & H). destruct u as [|y u]; cbn in E1; injection E1 as -> ->; [reflexivity|]. exfalso. apply (H y); [now left|exact E].
    + split.
      * destruct (modify_first n f cs) as [r|]; [|discriminate]. intros [= <-]. destruct (proj1 (IH r) eq_refl) as (u & c & v & -> & -> & E & H). exists (x :: u), c, v. repeat split; auto. intros y [<-|Y]; auto.
      * intros (u & c & v & E1 & -> & E2 & H). destruct u as [|y u]; cbn in E1; injection E1 as -> ->; [contradiction|].
        assert (K : modify_first n f (u ++ c :: v) = Some (u ++ f c :: v)) by (apply IH; exists u, c, v; repeat split; auto; intros z Z; apply H; now right). rewrite K. reflexivity.
Qed.
Lemma modify_first_none n f cs : modify_first n f cs = None <-> forall c, In c cs -> sc_name c <> n.
Proof.
  induction cs as [|x cs IH]; cbn [modify_first]; [split; [intros _ c []|reflexivity]|]. destruct (text_eqb_spec (sc_name x) n) as [E|N].
  - split; [discriminate|]. intros H. exfalso. apply (H x); [now left|exact E].
  - destruct (modify_first n f cs) as [r|] eqn:M.
    + split; [discriminate|]. intros H. assert (K : Some r = None) by (apply (proj2 IH); intros c C; apply H; now right). discriminate K.
    + split; [|reflexivity]. intros _ c [<-|C]; [exact N|]. apply (proj1 IH eq_refl), C.
Qed.
Lemma modify_context_some n f s s' : modify_context n f s = Some s' -> exists c, swapped n s s' c (f c).
Proof.
  unfold modify_context. destruct (modify_first n f (su_contexts s)) as [cs|] eqn:E; [|discriminate]. intros [= <-]. apply modify_first_some in E. destruct E as (u & c & v & A & B & C & D).
  exists c, u, v. cbn [set_contexts su_contexts su_desc su_mode]. repeat split; auto.
Qed.
Lemma modify_context_none n f s : modify_context n f s = None <-> ~ has_context n s.
Proof.
  unfold modify_context, has_context. destruct (modify_first n f (su_contexts s)) as [cs|] eqn:E.
  - split; [discriminate|]. intros H. exfalso. apply modify_first_some in E. destruct E as (u & c & v & A & _ & B & _). apply H. exists c. split; [rewrite A; apply in_app_iff; right; now left|exact B].
  - split; [|reflexivity]. intros _ (c & C & N). exact (proj1 (modify_first_none n f _) E c C N).
Qed.
Lemma hide_provides t c a o : provides (ctx_hide t c) a o <-> provides c a o /\ o <> t.
Proof.
  unfold provides, ctx_hide. cbn [sc_disabled sc_aliases sc_hidden]. destruct (mem_text t (sc_hidden c)) eqn:M.
  - apply mem_text_in in M. split; [intros (A & B & C); repeat split; auto; intros ->; contradiction|tauto].
  - rewrite in_app_iff. cbn [In]. split; [intros (A & B & C); repeat split; auto|intros [(A & B & C) D]; repeat split; auto; intros [E|[E|[]]]; congruence].
Qed.
Lemma alias_provides x t c a o : provides (ctx_alias x t c) a o <-> (a = x /\ o = t /\ sc_disabled c = false /\ ~ In t (sc_hidden c)) \/ (a <> x /\ provides c a o).
Proof.
  unfold provides, ctx_alias. cbn [sc_disabled sc_aliases sc_hidden]. destruct (list_eq_dec ascii_dec a x) as [->|N].
  - rewrite aget_put_same. split; [intros (A & [= ->] & C); left; auto|intros [(_ & -> & A & B)|[K _]]; [auto|congruence]].
  - rewrite aget_put_other by exact N. tauto.
Qed.
Lemma remove_first_some n cs cs' : remove_first n cs = Some cs' <-> exists u c v, cs = u ++ c :: v /\ cs' = u ++ v /\ sc_name c = n /\ forall x, In x u -> sc_name x <> n.
Proof.
  revert cs'. induction cs as [|x cs IH]; intros cs'; cbn [remove_first].
  - split; [discriminate|]. intros (u & c & v & E & _). destruct u; discriminate.
  - destruct (text_eqb_spec (sc_name x) n) as [E|N].
    + split.
      * intros [= <-]. exists [], x, cs. repeat split; auto; intros y [].
      * intros (u & c & v & E1 & -> & E2 & H). destruct u as [|y u]; cbn in E1; injection E1 as -> ->; [reflexivity|]. exfalso. apply (H y); [now left|exact E].
    + split.
      * destruct (remove_first n cs) as [r|]; [|discriminate]. intros [= <-]. destruct (proj1 (IH r) eq_refl) as (u & c & v & -> & -> & E & H). exists (x :: u), c, v. repeat split; auto. intros y [<-|Y]; auto.
      * intros (u & c & v & E1 & -> & E2 & H). destruct u as [|y u]; cbn in E1; injection E1 as -> ->; [contradiction|].
        assert (K : remove_first n (u ++ c :: v) = Some (u ++ v)) by (apply IH; exists u, c, v; repeat split; auto; intros z Z; apply H; now right). rewrite K. reflexivity.
Qed.
Lemma remove_context_some n s s' : history s -> remove_context n s = Some s' ->
  (forall c, In c (su_contexts s') <-> In c (su_contexts s) /\ sc_name c <> n) /\ (exists u c v, su_contexts s = u ++ c :: v /\ su_contexts s' = u ++ v /\ sc_name c = n) /\ su_desc s' = su_desc s /\ su_mode s' = su_mode s.
Proof.
  intros H. destruct (history_fine s H) as (ND & _). unfold remove_context. destruct (remove_first n (su_contexts s)) as [cs|] eqn:E; [|discriminate]. intros [= <-]. apply remove_first_some in E. destruct E as (u & c & v & A & B & C & D).
  cbn [set_contexts su_contexts su_desc su_mode]. split; [|split; [exists u, c, v; auto|auto]]. intros x. rewrite A in *. subst cs. rewrite map_app in ND. cbn [map] in ND. apply NoDup_remove in ND. destruct ND as [_ ND]. rewrite !in_app_iff. cbn [In]. split.
  - intros [X|X]; (split; [tauto|]); intros K; [exact (D x X K)|]. apply ND. rewrite C, <- K, in_app_iff. right. apply in_map, X.
  - intros [[X|[<-|X]] K]; [now left|contradiction|now right].
Qed.
Lemma remove_context_none n s : remove_context n s = None <-> ~ has_context n s.
Proof.
  unfold remove_context, has_context. destruct (remove_first n (su_contexts s)) as [cs|] eqn:E.
  - split; [discriminate|]. intros H. exfalso. apply remove_first_some in E. destruct E as (u & c & v & A & _ & B & _). apply H. exists c. split; [rewrite A; apply in_app_iff; right; now left|exact B].
  - split; [|reflexivity]. intros _ (c & C & N). assert (K : forall cs, In c cs -> remove_first n cs <> None).
    { induction cs as [|x cs IH]; intros I; [destruct I|]. cbn [remove_first]. destruct (text_eqb_spec (sc_name x) n); [discriminate|]. destruct I as [->|I]; [contradiction|]. specialize (IH I). destruct (remove_first n cs); congruence. }
    exact (K _ C E).
Qed.
Lemma valid_good n : valid_name n = true <-> good_name n.
Proof.
  unfold valid_name, good_name. rewrite andb_true_iff, negb_true_iff, forallb_forall. split.
  - intros [A B]. split; [intros ->; discriminate|]. intros c C. specialize (B c C). apply orb_true_iff in B. destruct B as [B|B]; [apply orb_true_iff in B; destruct B as [B|B]; [now left|]|]; apply Ascii.eqb_eq in B; auto.
  - intros [A B]. split; [destruct n; [contradiction|reflexivity]|]. intros c C. destruct (B c C) as [K|[-> | ->]]; [rewrite K; reflexivity|reflexivity|reflexivity].
Qed.
Lemma add_context_none n rs s : add_context n rs s = None <-> ~ good_name n \/ has_context n s.
Proof.
  unfold add_context, has_context. destruct (valid_name n) eqn:V; cbn [negb].
  - apply valid_good in V. destruct (existsb (fun c => text_eqb (sc_name c) n) (su_contexts s)) eqn:E.
    + split; [|reflexivity]. intros _. right. apply existsb_exists in E. destruct E as (c & C & K). exists c. split; [exact C|apply text_eqb_eq, K].
    + split; [discriminate|]. intros [K|(c & C & K)]; [contradiction|]. exfalso. assert (X : existsb (fun c => text_eqb (sc_name c) n) (su_contexts s) = true) by (apply existsb_exists; exists c; split; [exact C|apply text_eqb_eq, K]). congruence.
  - split; [|reflexivity]. intros _. left. rewrite <- valid_good. congruence.
Qed.
Lemma add_context_some n rs s s' : add_context n rs s = Some s' -> exists c, su_contexts s' = su_contexts s ++ [c] /\ sc_name c = n /\ sc_requests c = rs /\ (forall a o, ~ provides c a o) /\ su_desc s' = su_desc s /\ su_mode s' = su_mode s.
Proof.
  unfold add_context. destruct (negb (valid_name n)); [discriminate|]. destruct (existsb _ _); [discriminate|]. intros [= <-]. exists (new_ctx n rs). repeat split. intros a o (_ & K & _). discriminate K.
Qed.
Lemma parse_mode_some t m : parse_mode t = Some m <-> map to_lower t = mode_text m.
Proof.
  unfold parse_mode. split.
  - destruct (text_eqb_spec (map to_lower t) (T "error")) as [->|]; [intros [= <-]; reflexivity|]. destruct (text_eqb_spec (map to_lower t) (T "first")) as [->|]; [intros [= <-]; reflexivity|].
    destruct (text_eqb_spec (map to_lower t) (T "last")) as [->|]; [intros [= <-]; reflexivity|]. destruct (text_eqb_spec (map to_lower t) (T "prefix")) as [->|]; [intros [= <-]; reflexivity|discriminate].
  - intros ->. destruct m; reflexivity.
Qed.
