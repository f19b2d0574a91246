(** Proofs about suites. *)
From Verif Require Import Base Base_lemmas Maps Order_spec Suite_model Suite_spec.
Open Scope char_scope.

Lemma mem_in x l : mem_text x l = true <-> In x l.
Proof.
  induction l as [|y l IH]; cbn; [split; [discriminate|tauto]|]. destruct (text_eqb_spec x y) as [->|N]; cbn.
  - tauto.
  - unfold mem_text in IH. rewrite IH. split; [tauto|]. intros [E|H]; [congruence|exact H].
Qed.
Lemma visible_spec c o : visible c o = true <-> ~ In o (sc_hidden c).
Proof. unfold visible. rewrite negb_true_iff. rewrite <- mem_in. destruct (mem_text o (sc_hidden c)); split; (congruence || tauto). Qed.

(** ** Names *)
Lemma valid_good n : valid_name n = true <-> good_name n.
Proof.
  unfold valid_name, good_name. rewrite andb_true_iff, forallb_forall. split; intros [A B]; split.
  - destruct n; [discriminate A|discriminate].
  - intros c Hc. specialize (B c Hc). rewrite !orb_true_iff, !Ascii.eqb_eq in B. tauto.
  - destruct n; [congruence|reflexivity].
  - intros c Hc. specialize (B c Hc). rewrite !orb_true_iff, !Ascii.eqb_eq. tauto.
Qed.
Lemma remove_first_spec n cs cs' : remove_first n cs = Some cs' -> exists u c v, cs = u ++ c :: v /\ cs' = u ++ v /\ sc_name c = n.
Proof.
  revert cs'. induction cs as [|c cs IH]; intros cs' H; cbn in H; [discriminate|]. destruct (text_eqb_spec (sc_name c) n) as [E|].
  - injection H as <-. exists [], c, cs. auto.
  - destruct (remove_first n cs) as [r|]; [|discriminate]. injection H as <-. destruct (IH r eq_refl) as (u & d & v & -> & -> & E). exists (c :: u), d, v. auto.
Qed.
Lemma modify_first_spec n f cs cs' : modify_first n f cs = Some cs' -> exists u c v, cs = u ++ c :: v /\ cs' = u ++ f c :: v /\ sc_name c = n /\
  forall d, In d u -> sc_name d <> n.
Proof.
  revert cs'. induction cs as [|c cs IH]; intros cs' H; cbn in H; [discriminate|]. destruct (text_eqb_spec (sc_name c) n) as [E|N].
  - injection H as <-. exists [], c, cs. cbn. intuition.
  - destruct (modify_first n f cs) as [r|]; [|discriminate]. injection H as <-. destruct (IH r eq_refl) as (u & d & v & -> & -> & E & Hu).
    exists (c :: u), d, v. split; [reflexivity|]. split; [reflexivity|]. split; [exact E|]. intros x [<-|Hx]; auto.
Qed.
Definition fine (s : suite) : Prop := NoDup (map sc_name (su_contexts s)) /\ (forall c, In c (su_contexts s) -> good_name (sc_name c)) /\ proper (su_contexts s).
Lemma fine_modify n f s s' : (forall c, sc_name (f c) = sc_name c /\ (NoDup (akeys (sc_aliases c)) -> NoDup (akeys (sc_aliases (f c))))) ->
  modify_context n f s = Some s' -> fine s -> fine s'.
Proof.
  unfold modify_context, fine, proper. intros Hf H. destruct (modify_first n f (su_contexts s)) as [cs|] eqn:E; [|discriminate]. injection H as <-. cbn.
  apply modify_first_spec in E as (u & c & v & -> & -> & En & _). intros (N & G & P). rewrite map_app in *. cbn in *. rewrite (proj1 (Hf c)).
  split; [exact N|]. split; intros d Hd; apply in_app_iff in Hd as [Hd|[<-|Hd]]; try (apply G || apply P; apply in_app_iff; cbn; tauto).
  - rewrite (proj1 (Hf c)). apply G, in_app_iff. cbn. tauto.
  - apply Hf, P, in_app_iff. cbn. tauto.
Qed.
Lemma history_fine s : history s -> fine s.
Proof.
  induction 1 as [|s s' _ IH E]; [split; [constructor|split; intros c []]|].
  destruct E as [n rs s s' E|n s s' E|n a t s s' E|n t s s' E|n f s s' Hf E|s m|s d].
  - unfold add_context in E. destruct (valid_name n) eqn:V; [|discriminate]. cbn [negb] in E. destruct (existsb _ _) eqn:X; [discriminate|]. injection E as <-.
    destruct IH as (N & G & P). unfold fine, proper. cbn. split; [|split].
    + rewrite map_app. cbn. apply NoDup_Add with (a := n) (l := map sc_name (su_contexts s)); [|].
      * replace (map sc_name (su_contexts s) ++ [n]) with (map sc_name (su_contexts s) ++ n :: []) by reflexivity.
        rewrite <- (app_nil_r (map sc_name (su_contexts s))) at 1. apply Add_app.
      * split; [exact N|]. intros K. apply in_map_iff in K as [c [K Hc]].
        assert (Y : existsb (fun c => text_eqb (sc_name c) n) (su_contexts s) = true) by (apply existsb_exists; exists c; rewrite K, text_eqb_refl; auto). congruence.
    + intros c Hc. apply in_app_iff in Hc as [Hc|[<-|[]]]; [auto|]. apply valid_good, V.
    + intros c Hc. apply in_app_iff in Hc as [Hc|[<-|[]]]; [auto|]. constructor.
  - unfold remove_context in E. destruct (remove_first n (su_contexts s)) as [cs|] eqn:R; [|discriminate]. injection E as <-.
    apply remove_first_spec in R as (u & c & v & Ec & -> & _). unfold fine, proper in *. cbn. rewrite Ec in IH. destruct IH as (N & G & P).
    split; [|split]; [|intros d Hd; apply G|intros d Hd; apply P]; try (rewrite in_app_iff in *; cbn; tauto).
    rewrite map_app in *. cbn in N. apply NoDup_remove_1 in N. exact N.
  - eapply fine_modify; [|exact E|exact IH]. intros c. split; [reflexivity|]. cbn. apply nodup_put.
  - eapply fine_modify; [|exact E|exact IH]. intros c. split; [reflexivity|]. cbn. auto.
  - eapply fine_modify; [|exact E|exact IH]. intros c. split; [apply Hf|]. intros _. apply Hf.
  - exact IH.
  - exact IH.
Qed.

(** ** The table as a run over the exposed tools *)
Definition event := (sctx * (text * text))%type.
Definition ev_of (c : sctx) (l : list (text * text)) : list event := map (fun ao => (c, ao)) (filter (fun ao => visible c (snd ao)) l).
Fixpoint events (ord : nat -> list (text * text) -> list (text * text)) (i : nat) (cs : list sctx) : list event :=
  match cs with
  | [] => []
  | c :: cs' => (if sc_disabled c then [] else ev_of c (ord i (sc_aliases c))) ++ events ord (S i) cs'
  end.
Fixpoint run (md : mode) (es : list event) (m : list (text * stool)) : table :=
  match es with
  | [] => Tools m
  | (c, (a, o)) :: es' => match add_tool md c m a o with Tools m' => run md es' m' | e => e end
  end.
Lemma run_app md a b : forall m, run md (a ++ b) m = match run md a m with Tools m' => run md b m' | e => e end.
Proof. induction a as [|[c [x o]] a IH]; intros m; [reflexivity|]. cbn. destruct (add_tool md c m x o); [apply IH|reflexivity]. Qed.
Lemma run_aliases md c l : forall m, add_aliases md c l m = run md (ev_of c l) m.
Proof.
  induction l as [|[a o] l IH]; intros m; [reflexivity|]. unfold ev_of. cbn [add_aliases filter snd]. destruct (visible c o); [|apply IH].
  cbn [map run]. destruct (add_tool md c m a o); [apply IH|reflexivity].
Qed.
Lemma run_contexts md ord cs : forall i m, add_contexts md ord i cs m = run md (events ord i cs) m.
Proof.
  induction cs as [|c cs IH]; intros i m; [reflexivity|]. cbn [add_contexts events]. destruct (sc_disabled c); [apply IH|].
  rewrite run_app, run_aliases. destruct (run md (ev_of c (ord i (sc_aliases c))) m); [apply IH|reflexivity].
Qed.
Lemma tools_run ord s : get_tools ord s = run (su_mode s) (events ord 0 (su_contexts s)) [].
Proof. apply run_contexts. Qed.

Definition named (a : text) (e : event) : bool := text_eqb (fst (snd e)) a.
Definition tool_of (e : event) : stool := new_tool (fst (snd e)) (snd (snd e)) (sc_name (fst e)) (first_request (fst e)).
Lemma tool_entry e : entry (fst (snd e)) (snd (snd e)) (fst e) (tool_of e).
Proof.
  unfold entry, tool_of, new_tool. cbn. repeat split; try reflexivity.
  - destruct (text_eqb_spec (fst (snd e)) (snd (snd e))); [discriminate|]. auto.
  - intros H. destruct (text_eqb_spec (fst (snd e)) (snd (snd e))); [contradiction|reflexivity].
Qed.

(** ** The tools of one context *)
Lemma in_ev_of c l e : In e (ev_of c l) <-> fst e = c /\ In (snd e) l /\ ~ In (snd (snd e)) (sc_hidden c).
Proof.
  unfold ev_of. rewrite in_map_iff. split.
  - intros (ao & <- & H). apply filter_In in H as [H V]. apply visible_spec in V. auto.
  - intros (<- & H & V). exists (snd e). split; [destruct e; reflexivity|]. apply filter_In. split; [exact H|]. apply visible_spec, V.
Qed.
Definition evs (ord : nat -> list (text * text) -> list (text * text)) i (c : sctx) : list event := if sc_disabled c then [] else ev_of c (ord i (sc_aliases c)).
Lemma evs_in ord i c e : any_order (ord i) -> NoDup (akeys (sc_aliases c)) -> (In e (evs ord i c) <-> fst e = c /\ provides c (fst (snd e)) (snd (snd e))).
Proof.
  intros Ho N. unfold evs, provides. destruct (sc_disabled c) eqn:D; [split; [intros []|intros (_ & H & _); discriminate H]|]. rewrite in_ev_of.
  assert (Q : In (snd e) (ord i (sc_aliases c)) <-> aget (fst (snd e)) (sc_aliases c) = Some (snd (snd e))).
  { destruct e as [c0 [a o]]. cbn. split.
    - intros H. apply aget_nodup; [exact N|]. apply (Permutation_in _ (Ho _)), H.
    - intros H. apply aget_in in H. apply (Permutation_in _ (Permutation_sym (Ho _))), H. }
  rewrite Q. tauto.
Qed.
Lemma evs_nodup ord i c : any_order (ord i) -> NoDup (akeys (sc_aliases c)) -> NoDup (map (fun e => fst (snd e)) (evs ord i c)).
Proof.
  intros Ho N. unfold evs. destruct (sc_disabled c); [constructor|]. unfold ev_of. rewrite map_map. cbn.
  assert (N' : NoDup (map fst (ord i (sc_aliases c)))) by (apply (Permutation_NoDup (Permutation_map fst (Permutation_sym (Ho _)))), N).
  induction (ord i (sc_aliases c)) as [|[a o] l IH]; [constructor|]. cbn in N'. inversion N' as [|? ? H N2]; subst. cbn [filter snd]. destruct (visible c o); [|apply IH, N2].
  cbn. constructor; [|apply IH, N2]. intros K. apply H. apply in_map_iff in K as [y [K Hy]]. apply filter_In in Hy as [Hy _]. rewrite <- K. apply in_map, Hy.
Qed.
Lemma events_cons ord i c cs : events ord i (c :: cs) = evs ord i c ++ events ord (S i) cs. Proof. reflexivity. Qed.
Lemma events_in ord cs : every_order ord -> proper cs -> forall i e, In e (events ord i cs) <-> In (fst e) cs /\ provides (fst e) (fst (snd e)) (snd (snd e)).
Proof.
  intros Ho. induction cs as [|c cs IH]; intros P i e; [cbn; tauto|]. rewrite events_cons, in_app_iff, IH by (intros d Hd; apply P; right; exact Hd).
  rewrite (evs_in ord i c e (Ho i) (P c (or_introl eq_refl))). cbn [In]. split.
  - intros [[E H]|[H H']]; [subst c; auto|auto].
  - intros [[E|H] H']; [left; subst c; auto|auto].
Qed.

Lemma find_app {A} (f : A -> bool) a b : find f (a ++ b) = match find f a with Some x => Some x | None => find f b end.
Proof. induction a as [|x a IH]; [reflexivity|]. cbn. destruct (f x); [reflexivity|apply IH]. Qed.
Lemma find_evs ord i c a : any_order (ord i) -> NoDup (akeys (sc_aliases c)) -> forall f, (forall e, f e = named a e) ->
  forall l, (forall e, In e l <-> In e (evs ord i c)) ->
  (forall e, find f l = Some e <-> exists o, e = (c, (a, o)) /\ provides c a o) /\ (find f l = None <-> forall o, ~ provides c a o).
Proof.
  intros Ho N f Hf l Hl.
  assert (S1 : forall e, find f l = Some e -> exists o, e = (c, (a, o)) /\ provides c a o).
  { intros [c' [a' o]] H. apply find_some in H as [H E]. apply Hl, (evs_in ord i c _ Ho N) in H as [E' H]. cbn in E', H. subst c'. rewrite Hf in E. unfold named in E. cbn in E.
    destruct (text_eqb_spec a' a) as [->|]; [|discriminate]. exists o. auto. }
  assert (S2 : forall o, provides c a o -> find f l <> None).
  { intros o H E. assert (K : In (c, (a, o)) l) by (apply Hl, (evs_in ord i c _ Ho N); auto). apply (find_none _ _ E) in K. rewrite Hf in K. unfold named in K. cbn in K. rewrite text_eqb_refl in K. discriminate. }
  split.
  - intros e. split; [apply S1|]. intros (o & -> & H). destruct (find f l) as [e|] eqn:E; [|destruct (S2 o H eq_refl)]. destruct (S1 e eq_refl) as (o' & -> & H').
    f_equal. f_equal. f_equal. destruct H as (_ & H & _), H' as (_ & H' & _). congruence.
  - split; [intros E o H; exact (S2 o H E)|]. intros H. destruct (find f l) as [e|] eqn:E; [|reflexivity]. destruct (S1 e eq_refl) as (o & _ & K). destruct (H o K).
Qed.
Lemma first_cons c0 cs a o c : first_of (c0 :: cs) a o c <-> (c = c0 /\ provides c0 a o) \/ ((forall o', ~ provides c0 a o') /\ first_of cs a o c).
Proof.
  split.
  - intros (u & v & E & H & Hu). destruct u as [|x u]; injection E as -> E; [left; subst; auto|]. right. split; [intros o'; apply Hu; left; reflexivity|].
    exists u, v. split; [exact E|]. split; [exact H|]. intros c' o' Hc. apply Hu. right. exact Hc.
  - intros [[-> H]|[H0 (u & v & -> & H & Hu)]].
    + exists [], cs. split; [reflexivity|]. split; [exact H|]. intros c' o' [].
    + exists (c0 :: u), v. split; [reflexivity|]. split; [exact H|]. intros c' o' [<-|Hc]; auto.
Qed.
Lemma last_cons c0 cs a o c : last_of (c0 :: cs) a o c <-> last_of cs a o c \/ ((forall c' o', In c' cs -> ~ provides c' a o') /\ c = c0 /\ provides c0 a o).
Proof.
  split.
  - intros (u & v & E & H & Hv). destruct u as [|x u]; injection E as -> E; [right; subst; auto|]. left. exists u, v. auto.
  - intros [(u & v & -> & H & Hv)|(Hn & -> & H)].
    + exists (c0 :: u), v. auto.
    + exists [], cs. auto.
Qed.
Lemma find_first ord a cs : every_order ord -> proper cs -> forall i,
  (forall e, find (named a) (events ord i cs) = Some e <-> exists c o, e = (c, (a, o)) /\ first_of cs a o c) /\
  (find (named a) (events ord i cs) = None <-> forall c o, In c cs -> ~ provides c a o).
Proof.
  intros Ho. induction cs as [|c0 cs IH]; intros P i.
  { split; [|cbn; intuition]. intros e. split; [discriminate|]. intros (c & o & _ & u & v & E & _). destruct u; discriminate E. }
  rewrite events_cons, find_app. destruct (IH (fun d Hd => P d (or_intror Hd)) (S i)) as [IH1 IH2].
  destruct (find_evs ord i c0 a (Ho i) (P c0 (or_introl eq_refl)) (named a) (fun _ => eq_refl) (evs ord i c0) (fun _ => iff_refl _)) as [F1 F2].
  destruct (find (named a) (evs ord i c0)) as [e0|] eqn:E0.
  - destruct (proj1 (F1 e0) eq_refl) as (o0 & -> & H0). split.
    + intros e. split.
      * intros [= <-]. exists c0, o0. split; [reflexivity|]. apply first_cons. auto.
      * intros (c & o & -> & H). apply first_cons in H as [[-> H]|[H _]]; [|destruct (H o0 H0)]. destruct H as (_ & H & _), H0 as (_ & H0 & _). congruence.
    + split; [discriminate|]. intros H. destruct (H c0 o0 (or_introl eq_refl) H0).
  - assert (H0 := proj1 F2 eq_refl). split.
    + intros e. rewrite IH1. split; intros (c & o & -> & H); exists c, o; split; try reflexivity.
      * apply first_cons. auto.
      * apply first_cons in H as [[-> H]|[_ H]]; [destruct (H0 o H)|exact H].
    + rewrite IH2. split; [intros H c o [<-|Hc]; auto|]. intros H c o Hc. apply H. right. exact Hc.
Qed.
Lemma find_last ord a cs : every_order ord -> proper cs -> forall i,
  (forall e, find (named a) (rev (events ord i cs)) = Some e <-> exists c o, e = (c, (a, o)) /\ last_of cs a o c) /\
  (find (named a) (rev (events ord i cs)) = None <-> forall c o, In c cs -> ~ provides c a o).
Proof.
  intros Ho. induction cs as [|c0 cs IH]; intros P i.
  { split; [|cbn; intuition]. intros e. split; [discriminate|]. intros (c & o & _ & u & v & E & _). destruct u; discriminate E. }
  rewrite events_cons, rev_app_distr, find_app. destruct (IH (fun d Hd => P d (or_intror Hd)) (S i)) as [IH1 IH2].
  destruct (find_evs ord i c0 a (Ho i) (P c0 (or_introl eq_refl)) (named a) (fun _ => eq_refl) (rev (evs ord i c0)) (fun e => iff_sym (in_rev _ _))) as [F1 F2].
  destruct (find (named a) (rev (events ord (S i) cs))) as [e0|] eqn:E0.
  - destruct (proj1 (IH1 e0) eq_refl) as (c1 & o1 & -> & H1). assert (H1' := H1). destruct H1' as (u1 & v1 & E1 & H1' & _).
    assert (I1 : In c1 cs) by (rewrite E1; apply in_app_iff; right; left; reflexivity). split.
    + intros e. rewrite (IH1 e). split; intros (c & o & -> & H); exists c, o; (split; [reflexivity|]).
      * apply last_cons. auto.
      * apply last_cons in H as [H|(H & _)]; [exact H|destruct (H c1 o1 I1 H1')].
    + split; [discriminate|]. intros H. destruct (H c1 o1 (or_intror I1) H1').
  - assert (H0 := proj1 IH2 eq_refl). split.
    + intros e. rewrite F1. split.
      * intros (o & -> & H). exists c0, o. split; [reflexivity|]. apply last_cons. auto.
      * intros (c & o & -> & H). apply last_cons in H as [(u & v & E & H & _)|(_ & -> & H)]; [|exists o; auto]. destruct (H0 c o); [|exact H]. rewrite E. apply in_app_iff. right. left. reflexivity.
    + rewrite F2. split; [intros H c o [<-|Hc]; auto|]. intros H o. apply H. left. reflexivity.
Qed.

(** ** First, last and error mode *)
Lemma run_first es : forall m, exists m', run MFirst es m = Tools m' /\
  (forall a, aget a m' = match aget a m with Some t => Some t | None => match find (named a) es with Some e => Some (tool_of e) | None => None end end) /\
  (NoDup (akeys m) -> NoDup (akeys m')).
Proof.
  induction es as [|[c [b o]] es IH]; intros m; cbn [run].
  - exists m. split; [reflexivity|]. split; [|auto]. intros a. destruct (aget a m); reflexivity.
  - unfold add_tool. destruct (aget b m) as [t|] eqn:E.
    + destruct (IH m) as (m' & R & H & N). exists m'. split; [exact R|]. split; [|exact N]. intros a. rewrite H. destruct (aget a m) eqn:Ea; [reflexivity|].
      cbn [find named fst snd]. unfold named at 2. cbn. destruct (text_eqb_spec b a) as [->|]; [congruence|reflexivity].
    + destruct (IH (aput b (new_tool b o (sc_name c) (first_request c)) m)) as (m' & R & H & N). exists m'. split; [exact R|]. split; [|intros K; apply N, nodup_put, K].
      intros a. rewrite H. cbn [find]. unfold named at 2. cbn. destruct (text_eqb_spec b a) as [->|Hn].
      * rewrite aget_put_same, E. reflexivity.
      * rewrite aget_put_other by congruence. reflexivity.
Qed.
Lemma run_last es : forall m, exists m', run MLast es m = Tools m' /\
  (forall a, aget a m' = match find (named a) (rev es) with Some e => Some (tool_of e) | None => aget a m end) /\
  (NoDup (akeys m) -> NoDup (akeys m')).
Proof.
  induction es as [|[c [b o]] es IH]; intros m; cbn [run].
  - exists m. split; [reflexivity|]. split; auto.
  - assert (A : add_tool MLast c m b o = Tools (aput b (new_tool b o (sc_name c) (first_request c)) m)) by (unfold add_tool; destruct (aget b m); reflexivity).
    rewrite A. destruct (IH (aput b (new_tool b o (sc_name c) (first_request c)) m)) as (m' & R & H & N). exists m'. split; [exact R|]. split; [|intros K; apply N, nodup_put, K].
    intros a. rewrite H. cbn [rev]. rewrite find_app. destruct (find (named a) (rev es)); [reflexivity|]. cbn [find]. unfold named. cbn. destruct (text_eqb_spec b a) as [->|Hn].
    + apply aget_put_same.
    + apply aget_put_other. congruence.
Qed.
Definition aliases_of (es : list event) : list text := map (fun e => fst (snd e)) es.
Lemma run_error es : forall m,
  match run MError es m with
  | Tools m' => run MFirst es m = Tools m' /\ NoDup (aliases_of es) /\ forall a, In a (aliases_of es) -> aget a m = None
  | Conflict a t => exists e1 c o e2 x, es = e1 ++ (c, (a, o)) :: e2 /\ t = x ++ T ", " ++ sc_name c /\
      ((exists y, aget a m = Some y /\ x = st_context y) \/ exists c' o', In (c', (a, o')) e1 /\ x = sc_name c')
  end.
Proof.
  induction es as [|[c [b o]] es IH]; intros m; cbn [run].
  - split; [reflexivity|]. split; [constructor|intros a []].
  - unfold add_tool. destruct (aget b m) as [t|] eqn:E.
    + exists [], c, o, es, (st_context t). split; [reflexivity|]. split; [reflexivity|]. left. exists t. auto.
    + specialize (IH (aput b (new_tool b o (sc_name c) (first_request c)) m)). destruct (run MError es _) as [m'|a t].
      * destruct IH as (R & N & H). split; [exact R|]. split.
        -- cbn. constructor; [|exact N]. intros K. specialize (H b K). rewrite aget_put_same in H. discriminate.
        -- intros a [<-|K]; [exact E|]. specialize (H a K). destruct (text_eqb_spec a b) as [->|Hn]; [rewrite aget_put_same in H; discriminate|]. rewrite aget_put_other in H by exact Hn. exact H.
      * destruct IH as (e1 & c1 & o1 & e2 & x & -> & Ht & H). exists ((c, (b, o)) :: e1), c1, o1, e2, x. split; [reflexivity|]. split; [exact Ht|].
        destruct H as [(y & Hy & Hx)|(c' & o' & Hi & Hx)].
        -- destruct (text_eqb_spec a b) as [->|Hn].
           ++ rewrite aget_put_same in Hy. injection Hy as <-. right. exists c, o. split; [left; reflexivity|exact Hx].
           ++ rewrite aget_put_other in Hy by exact Hn. left. exists y. auto.
        -- right. exists c', o'. split; [right; exact Hi|exact Hx].
Qed.
Lemma app_cases {A} (a b u v : list A) x : a ++ b = u ++ x :: v -> (exists w, a = u ++ x :: w /\ v = w ++ b) \/ (exists w, u = a ++ w /\ b = w ++ x :: v).
Proof.
  revert u. induction a as [|y a IH]; intros u E; cbn in E.
  - right. exists u. auto.
  - destruct u as [|z u]; injection E as -> E.
    + left. exists a. auto.
    + destruct (IH u E) as [(w & -> & ->)|(w & -> & ->)]; [left|right]; exists w; auto.
Qed.
Lemma NoDup_app_split {A} (a b : list A) : NoDup (a ++ b) -> NoDup a /\ NoDup b /\ forall x, In x a -> ~ In x b.
Proof.
  induction a as [|x a IH]; cbn; intros H; [split; [constructor|split; [exact H|intros x []]]|]. inversion H as [|? ? Hx H']; subst. destruct (IH H') as (Na & Nb & D).
  rewrite in_app_iff in Hx. split; [constructor; tauto|]. split; [exact Nb|]. intros y [<-|Hy]; [tauto|auto].
Qed.
Lemma events_clash ord cs : every_order ord -> proper cs -> forall i e1 c o e2 c' o' a,
  events ord i cs = e1 ++ (c, (a, o)) :: e2 -> In (c', (a, o')) e1 -> clash cs a c' c.
Proof.
  intros Ho. induction cs as [|c0 cs IH]; intros P i e1 c o e2 c' o' a E H; [destruct e1; discriminate E|]. rewrite events_cons in E.
  assert (P' : proper cs) by (intros d Hd; apply P; right; exact Hd). assert (P0 := P c0 (or_introl eq_refl)).
  apply app_cases in E as [(w & E & _)|(w & -> & E)].
  - exfalso. assert (N := evs_nodup ord i c0 (Ho i) P0). rewrite E, map_app in N. cbn in N. apply NoDup_remove_2 in N. apply N, in_app_iff. left.
    apply in_map_iff. exists (c', (a, o')). auto.
  - apply in_app_iff in H as [H|H].
    + apply (evs_in ord i c0 _ (Ho i) P0) in H as [E0 H]. cbn in E0, H. subst c'.
      assert (K : In (c, (a, o)) (events ord (S i) cs)) by (rewrite E; apply in_app_iff; right; left; reflexivity).
      apply (events_in ord cs Ho P' (S i)) in K as [K1 K2]. cbn in K1, K2. apply in_split in K1 as (v & x & ->). exists [], v, x, o', o. auto.
    + destruct (IH P' (S i) w c o e2 c' o' a E H) as (u & v & x & p & q & -> & H1 & H2). exists (c0 :: u), v, x, p, q. auto.
Qed.
Lemma clash_events ord cs a c c' : every_order ord -> proper cs -> clash cs a c c' -> forall i, ~ NoDup (aliases_of (events ord i cs)).
Proof.
  intros Ho P (u & v & w & o & o' & -> & H & H'). induction u as [|c0 u IH]; intros i N.
  - cbn [app] in *. rewrite events_cons in N. unfold aliases_of in N. rewrite map_app in N. apply NoDup_app_split in N as (_ & _ & D). apply (D a).
    + apply in_map_iff. exists (c, (a, o)). split; [reflexivity|]. apply (evs_in ord i c _ (Ho i)); [apply P; left; reflexivity|]. auto.
    + apply in_map_iff. exists (c', (a, o')). split; [reflexivity|]. apply events_in; [exact Ho|intros d Hd; apply P; right; exact Hd|]. cbn. split; [|exact H'].
      apply in_app_iff. right. left. reflexivity.
  - cbn [app] in *. rewrite events_cons in N. unfold aliases_of in N. rewrite map_app in N. apply NoDup_app_split in N as (_ & N & _). apply (IH (fun d Hd => P d (or_intror Hd)) (S i) N).
Qed.

(** the table in the three modes *)
Lemma table_first ord s : every_order ord -> proper (su_contexts s) -> su_mode s = MFirst -> exists m, get_tools ord s = Tools m /\ NoDup (akeys m) /\
  (forall a t, aget a m = Some t -> exists c o, first_of (su_contexts s) a o c /\ entry a o c t) /\
  (forall a o c, first_of (su_contexts s) a o c -> exists t, aget a m = Some t /\ entry a o c t).
Proof.
  intros Ho P Em. rewrite tools_run, Em. destruct (run_first (events ord 0 (su_contexts s)) []) as (m & R & H & N). exists m. split; [exact R|]. split; [apply N; constructor|].
  split.
  - intros a t Ht. rewrite H in Ht. cbn in Ht. destruct (find (named a) _) as [e|] eqn:E; [|discriminate]. injection Ht as <-.
    apply (find_first ord a _ Ho P 0) in E as (c & o & -> & Hf). exists c, o. split; [exact Hf|]. apply (tool_entry (c, (a, o))).
  - intros a o c Hf. rewrite H. cbn. assert (E : find (named a) (events ord 0 (su_contexts s)) = Some (c, (a, o))) by (apply (find_first ord a _ Ho P 0); exists c, o; auto).
    rewrite E. exists (tool_of (c, (a, o))). split; [reflexivity|]. apply (tool_entry (c, (a, o))).
Qed.
Lemma table_last ord s : every_order ord -> proper (su_contexts s) -> su_mode s = MLast -> exists m, get_tools ord s = Tools m /\ NoDup (akeys m) /\
  (forall a t, aget a m = Some t -> exists c o, last_of (su_contexts s) a o c /\ entry a o c t) /\
  (forall a o c, last_of (su_contexts s) a o c -> exists t, aget a m = Some t /\ entry a o c t).
Proof.
  intros Ho P Em. rewrite tools_run, Em. destruct (run_last (events ord 0 (su_contexts s)) []) as (m & R & H & N). exists m. split; [exact R|]. split; [apply N; constructor|].
  split.
  - intros a t Ht. rewrite H in Ht. cbn in Ht. destruct (find (named a) _) as [e|] eqn:E; [|discriminate]. injection Ht as <-.
    apply (find_last ord a _ Ho P 0) in E as (c & o & -> & Hf). exists c, o. split; [exact Hf|]. apply (tool_entry (c, (a, o))).
  - intros a o c Hf. rewrite H. assert (E : find (named a) (rev (events ord 0 (su_contexts s))) = Some (c, (a, o))) by (apply (find_last ord a _ Ho P 0); exists c, o; auto).
    rewrite E. exists (tool_of (c, (a, o))). split; [reflexivity|]. apply (tool_entry (c, (a, o))).
Qed.
Lemma table_error ord s : every_order ord -> proper (su_contexts s) -> su_mode s = MError ->
  match get_tools ord s with
  | Tools m => NoDup (akeys m) /\ (forall a c c', ~ clash (su_contexts s) a c c') /\
      (forall a t, aget a m = Some t -> exists c o, In c (su_contexts s) /\ provides c a o /\ entry a o c t) /\
      (forall c a o, In c (su_contexts s) -> provides c a o -> exists t, aget a m = Some t /\ entry a o c t)
  | Conflict a t => exists c c', clash (su_contexts s) a c c' /\ t = sc_name c ++ T ", " ++ sc_name c'
  end.
Proof.
  intros Ho P Em. rewrite tools_run, Em. assert (H := run_error (events ord 0 (su_contexts s)) []).
  destruct (run MError (events ord 0 (su_contexts s)) []) as [m|a t].
  - destruct H as (R & N & _). destruct (run_first (events ord 0 (su_contexts s)) []) as (m' & R' & H & N'). rewrite R in R'. injection R' as <-.
    assert (NC : forall a c c', ~ clash (su_contexts s) a c c') by (intros a c c' K; exact (clash_events ord _ a c c' Ho P K 0 N)).
    split; [apply N'; constructor|]. split; [exact NC|]. split.
    + intros a t Ht. rewrite H in Ht. cbn in Ht. destruct (find (named a) _) as [e|] eqn:E; [|discriminate]. injection Ht as <-.
      apply (find_first ord a _ Ho P 0) in E as (c & o & -> & (u & v & E & Hp & _)). exists c, o. split; [rewrite E; apply in_app_iff; right; left; reflexivity|]. split; [exact Hp|]. apply (tool_entry (c, (a, o))).
    + intros c a o Hc Hp. rewrite H. cbn.
      assert (E : find (named a) (events ord 0 (su_contexts s)) = Some (c, (a, o))).
      { apply (find_first ord a _ Ho P 0). exists c, o. split; [reflexivity|]. apply in_split in Hc as (u & v & E). exists u, v. split; [exact E|]. split; [exact Hp|].
        intros c' o' Hc' Hp'. apply in_split in Hc' as (u1 & u2 & ->). apply (NC a c' c). exists u1, u2, v, o', o. rewrite E, <- app_assoc. auto. }
      rewrite E. exists (tool_of (c, (a, o))). split; [reflexivity|]. apply (tool_entry (c, (a, o))).
  - destruct H as (e1 & c & o & e2 & x & E & -> & [(y & Hy & _)|(c' & o' & Hi & ->)]); [discriminate Hy|]. exists c', c. split; [|reflexivity].
    exact (events_clash ord _ Ho P 0 e1 c o e2 c' o' a E Hi).
Qed.

(** ** The order of the alias maps does not matter *)
Lemma find_first_order ord ord' a cs : every_order ord -> every_order ord' -> proper cs -> find (named a) (events ord 0 cs) = find (named a) (events ord' 0 cs).
Proof.
  intros Ho Ho' P. destruct (find_first ord a cs Ho P 0) as [A B], (find_first ord' a cs Ho' P 0) as [A' B'].
  destruct (find (named a) (events ord 0 cs)) as [e|].
  - symmetry. apply A'. apply A. reflexivity.
  - symmetry. apply B'. apply B. reflexivity.
Qed.
Lemma find_last_order ord ord' a cs : every_order ord -> every_order ord' -> proper cs -> find (named a) (rev (events ord 0 cs)) = find (named a) (rev (events ord' 0 cs)).
Proof.
  intros Ho Ho' P. destruct (find_last ord a cs Ho P 0) as [A B], (find_last ord' a cs Ho' P 0) as [A' B'].
  destruct (find (named a) (rev (events ord 0 cs))) as [e|].
  - symmetry. apply A'. apply A. reflexivity.
  - symmetry. apply B'. apply B. reflexivity.
Qed.
Lemma table_order ord ord' s m : every_order ord -> every_order ord' -> proper (su_contexts s) -> su_mode s <> MPrefix -> get_tools ord s = Tools m ->
  exists m', get_tools ord' s = Tools m' /\ forall a, aget a m = aget a m'.
Proof.
  intros Ho Ho' P Nm H. assert (H' := H). rewrite tools_run in H. destruct (su_mode s) eqn:Em; [| | |congruence].
  - assert (K := table_error ord s Ho P Em). rewrite H' in K. destruct K as (_ & NC & _).
    assert (R := run_error (events ord 0 (su_contexts s)) []). rewrite H in R. destruct R as (R & _).
    assert (K' := table_error ord' s Ho' P Em). assert (R' := run_error (events ord' 0 (su_contexts s)) []). rewrite tools_run, Em in *.
    destruct (run MError (events ord' 0 (su_contexts s)) []) as [m'|a t].
    + exists m'. split; [reflexivity|]. intros a. destruct R' as (R' & _).
      destruct (run_first (events ord 0 (su_contexts s)) []) as (m1 & R1 & H1 & _). rewrite R in R1. injection R1 as <-.
      destruct (run_first (events ord' 0 (su_contexts s)) []) as (m2 & R2 & H2 & _). rewrite R' in R2. injection R2 as <-.
      rewrite H1, H2, (find_first_order ord ord' a _ Ho Ho' P). reflexivity.
    + destruct K' as (c & c' & K' & _). destruct (NC a c c' K').
  - destruct (run_first (events ord 0 (su_contexts s)) []) as (m1 & R1 & H1 & _). rewrite H in R1. injection R1 as <-.
    destruct (run_first (events ord' 0 (su_contexts s)) []) as (m2 & R2 & H2 & _). exists m2. rewrite tools_run, Em. split; [exact R2|].
    intros a. rewrite H1, H2, (find_first_order ord ord' a _ Ho Ho' P). reflexivity.
  - destruct (run_last (events ord 0 (su_contexts s)) []) as (m1 & R1 & H1 & _). rewrite H in R1. injection R1 as <-.
    destruct (run_last (events ord' 0 (su_contexts s)) []) as (m2 & R2 & H2 & _). exists m2. rewrite tools_run, Em. split; [exact R2|].
    intros a. rewrite H1, H2, (find_last_order ord ord' a _ Ho Ho' P). reflexivity.
Qed.

(** ** Prefix mode *)
Definition pname (e : event) : text := sc_name (fst e) ++ T "_" ++ fst (snd e).
Definition ptool (e : event) : stool := new_tool (pname e) (snd (snd e)) (sc_name (fst e)) (first_request (fst e)).
Lemma ptool_entry e : entry (pname e) (snd (snd e)) (fst e) (ptool e).
Proof.
  unfold entry, ptool, new_tool. cbn [st_name st_original st_context st_package st_alias st_hidden]. repeat split; try reflexivity.
  - destruct (text_eqb_spec (pname e) (snd (snd e))); [discriminate|]. auto.
  - intros H. destruct (text_eqb_spec (pname e) (snd (snd e))); [contradiction|reflexivity].
Qed.
Lemma run_snoc md es c a o m : run md (es ++ [(c, (a, o))]) m = match run md es m with Tools m' => add_tool md c m' a o | e => e end.
Proof. rewrite run_app. destruct (run md es m) as [m'|]; [|reflexivity]. cbn. destruct (add_tool md c m' a o); reflexivity. Qed.
Lemma run_prefix_ok es : exists m, run MPrefix es [] = Tools m.
Proof.
  induction es as [|[c [a o]] es [m IH]] using rev_ind; [exists []; reflexivity|]. rewrite run_snoc, IH. unfold add_tool. destruct (aget a m); eexists; reflexivity.
Qed.
(** whatever the names, each entry tells the truth *)
Lemma run_prefix_sound es : forall m, run MPrefix es [] = Tools m -> forall x t, aget x m = Some t ->
  exists e, In e es /\ (x = fst (snd e) \/ x = pname e) /\ entry x (snd (snd e)) (fst e) t.
Proof.
  induction es as [|[c [a o]] es IH] using rev_ind; intros m R x t H; [injection R as <-; discriminate|]. rewrite run_snoc in R.
  destruct (run_prefix_ok es) as [m' R']. rewrite R' in R. unfold add_tool in R.
  assert (Old : aget x m' = Some t -> exists e, In e (es ++ [(c, (a, o))]) /\ (x = fst (snd e) \/ x = pname e) /\ entry x (snd (snd e)) (fst e) t).
  { intros K. destruct (IH m' R' x t K) as (e & He & K'). exists e. split; [apply in_app_iff; auto|exact K']. }
  assert (I : In (c, (a, o)) (es ++ [(c, (a, o))])) by (apply in_app_iff; right; left; reflexivity).
  destruct (aget a m') as [y|].
  - apply (f_equal (fun r => match r with Tools z => z | _ => [] end)) in R. subst m. fold (pname (c, (a, o))) in H. destruct (text_eqb_spec x (pname (c, (a, o)))) as [->|N].
    + change (sc_name c ++ T "_" ++ a) with (pname (c, (a, o))) in H. rewrite aget_put_same in H. injection H as <-. exists (c, (a, o)). split; [exact I|]. split; [right; reflexivity|]. apply (ptool_entry (c, (a, o))).
    + change (sc_name c ++ T "_" ++ a) with (pname (c, (a, o))) in H. rewrite aget_put_other in H by exact N. apply Old, H.
  - injection R as <-. destruct (text_eqb_spec x a) as [->|N].
    + rewrite aget_put_same in H. injection H as <-. exists (c, (a, o)). split; [exact I|]. split; [left; reflexivity|]. apply (tool_entry (c, (a, o))).
    + rewrite aget_put_other in H by exact N. apply Old, H.
Qed.
Lemma find_none_in a es : find (named a) es = None <-> ~ In a (aliases_of es).
Proof.
  split.
  - intros H K. apply in_map_iff in K as [e [<- He]]. apply (find_none _ _ H) in He. unfold named in He. rewrite text_eqb_refl in He. discriminate.
  - intros H. destruct (find (named a) es) as [e|] eqn:E; [|reflexivity]. apply find_some in E as [He E]. unfold named in E. destruct (text_eqb_spec (fst (snd e)) a) as [<-|]; [|discriminate].
    destruct H. apply (in_map (fun e => fst (snd e))), He.
Qed.
Lemma run_prefix es : (forall e e', In e es -> In e' es -> fst (snd e') <> pname e) -> (forall e e', In e es -> In e' es -> pname e = pname e' -> e = e') ->
  forall m, run MPrefix es [] = Tools m -> forall x t, aget x m = Some t <->
    (exists e, find (named x) es = Some e /\ t = tool_of e) \/
    (exists u e v, es = u ++ e :: v /\ In (fst (snd e)) (aliases_of u) /\ x = pname e /\ t = ptool e).
Proof.
  induction es as [|[c [a o]] es IH] using rev_ind; intros A1 A2 m R x t.
  { injection R as <-. split; [discriminate|]. intros [(e & H & _)|(u & e & v & H & _)]; [discriminate|destruct u; discriminate H]. }
  rewrite run_snoc in R. destruct (run_prefix_ok es) as [m' R']. rewrite R' in R.
  assert (IH' := IH (fun e e' H H' => A1 e e' (in_or_app _ _ _ (or_introl H)) (in_or_app _ _ _ (or_introl H')))
    (fun e e' H H' => A2 e e' (in_or_app _ _ _ (or_introl H)) (in_or_app _ _ _ (or_introl H'))) m' R'). clear IH.
  set (z := (c, (a, o))) in *. assert (I : In z (es ++ [z])) by (apply in_app_iff; right; left; reflexivity).
  (* the second way to have an entry, one step later *)
  assert (Sec : forall x t, (exists u e v, es ++ [z] = u ++ e :: v /\ In (fst (snd e)) (aliases_of u) /\ x = pname e /\ t = ptool e) <->
    (exists u e v, es = u ++ e :: v /\ In (fst (snd e)) (aliases_of u) /\ x = pname e /\ t = ptool e) \/ (In a (aliases_of es) /\ x = pname z /\ t = ptool z)).
  { intros x0 t0. split.
    - intros (u & e & v & E & H). apply app_cases in E as [(w & E & _)|(w & -> & E)].
      + left. exists u, e, w. auto.
      + right. destruct w as [|y w]; [|injection E as _ E; destruct w; discriminate E]. injection E as <- _. rewrite app_nil_r in H. exact H.
    - intros [(u & e & v & -> & H)|H].
      + exists u, e, (v ++ [z]). split; [rewrite <- app_assoc; reflexivity|exact H].
      + exists es, z, []. split; [reflexivity|exact H]. }
  rewrite Sec. clear Sec. rewrite find_app. cbn [find].
  assert (Lk : aget a m' = None <-> ~ In a (aliases_of es)).
  { rewrite <- find_none_in. split; intros K.
    - destruct (find (named a) es) as [e|] eqn:E; [|reflexivity]. assert (Q : aget a m' = Some (tool_of e)) by (apply IH'; left; exists e; auto). congruence.
    - destruct (aget a m') as [y|] eqn:E; [|reflexivity]. apply IH' in E as [(e & E & _)|(u & e & v & Ee & _ & E & _)]; [congruence|].
      destruct (A1 e z); [rewrite Ee; apply in_app_iff; left; apply in_app_iff; right; left; reflexivity|exact I|exact E]. }
  unfold add_tool in R. destruct (aget a m') as [y|] eqn:Ea.
  - assert (Ia : In a (aliases_of es)) by (destruct (in_dec (list_eq_dec ascii_dec) a (aliases_of es)) as [K|K]; [exact K|apply Lk in K; discriminate]).
    assert (Fx : named x z = true -> find (named x) es <> None).
    { unfold named, z. cbn. destruct (text_eqb_spec a x) as [<-|]; [|discriminate]. intros _ K. apply find_none_in in K. contradiction. }
    apply (f_equal (fun r => match r with Tools z => z | _ => [] end)) in R. subst m. change (sc_name c ++ T "_" ++ a) with (pname z). change (new_tool (pname z) o (sc_name c) (first_request c)) with (ptool z).
    destruct (text_eqb_spec x (pname z)) as [->|N].
    + rewrite aget_put_same. split.
      * intros [= <-]. right. right. auto.
      * assert (Fn : find (named (pname z)) es = None).
        { apply find_none_in. intros K. apply in_map_iff in K as [e [E He]]. apply (A1 z e I); [apply in_app_iff; auto|exact E]. }
        rewrite Fn. intros [(e & H & _)|[(u & e & v & E & _ & K & ->)|(_ & _ & ->)]].
        -- destruct (named (pname z) z) eqn:Q; [destruct (Fx eq_refl Fn)|discriminate].
        -- f_equal. rewrite (A2 z e I); [reflexivity| |exact K]. rewrite E. apply in_app_iff. left. apply in_app_iff. right. left. reflexivity.
        -- reflexivity.
    + rewrite aget_put_other by exact N. rewrite IH'. destruct (find (named x) es) as [e0|] eqn:F.
      * intuition.
      * destruct (named x z) eqn:Q; [destruct (Fx eq_refl eq_refl)|]. intuition.
  - assert (Na : ~ In a (aliases_of es)) by (apply Lk; reflexivity). injection R as <-. destruct (text_eqb_spec x a) as [->|N].
    + rewrite aget_put_same. apply find_none_in in Na as Fn. rewrite Fn. unfold named at 1. unfold z at 1. cbn. rewrite text_eqb_refl. split.
      * intros [= <-]. left. exists z. auto.
      * intros [(e & [= <-] & ->)|[(u & e & v & E & _ & K & _)|(K & _)]]; [reflexivity| |contradiction].
        destruct (A1 e z); [rewrite E; apply in_app_iff; left; apply in_app_iff; right; left; reflexivity|exact I|exact K].
    + rewrite aget_put_other by exact N. rewrite IH'. destruct (find (named x) es) as [e0|].
      * intuition.
      * assert (Q : named x z = false) by (unfold named, z; cbn; destruct (text_eqb_spec a x); [congruence|reflexivity]). rewrite Q. intuition.
Qed.
(** a clash shows in the run *)
Lemma clash_split ord cs a c' c o : every_order ord -> proper cs -> clash cs a c' c -> provides c a o -> forall i, exists u v, events ord i cs = u ++ (c, (a, o)) :: v /\ In a (aliases_of u).
Proof.
  intros Ho P (p & q & r & o' & o2 & -> & H' & _) H. induction p as [|c0 p IH]; intros i.
  - cbn [app] in *. rewrite events_cons. assert (P0 := P c' (or_introl eq_refl)).
    assert (K : In (c, (a, o)) (events ord (S i) (q ++ c :: r))).
    { apply events_in; [exact Ho|intros d Hd; apply P; right; exact Hd|]. split; [apply in_app_iff; right; left; reflexivity|exact H]. }
    apply in_split in K as (u & v & ->). exists (evs ord i c' ++ u), v. rewrite <- app_assoc. split; [reflexivity|]. unfold aliases_of. rewrite map_app. apply in_app_iff. left.
    apply in_map_iff. exists (c', (a, o')). split; [reflexivity|]. apply evs_in; auto.
  - cbn [app] in *. rewrite events_cons. destruct (IH (fun d Hd => P d (or_intror Hd)) (S i)) as (u & v & E & K). rewrite E. exists (evs ord i c0 ++ u), v. rewrite <- app_assoc. split; [reflexivity|].
    unfold aliases_of in *. rewrite map_app. apply in_app_iff. auto.
Qed.
Lemma names_inj cs c c' : NoDup (map sc_name cs) -> In c cs -> In c' cs -> sc_name c = sc_name c' -> c = c'.
Proof.
  induction cs as [|d cs IH]; intros N H H' E; [destruct H|]. cbn in N. inversion N as [|? ? Hd N']; subst. destruct H as [<-|H], H' as [<-|H'].
  - reflexivity.
  - destruct Hd. rewrite E. apply in_map, H'.
  - destruct Hd. rewrite <- E. apply in_map, H.
  - apply IH; auto.
Qed.
Lemma table_prefix ord s : every_order ord -> proper (su_contexts s) -> su_mode s = MPrefix -> NoDup (map sc_name (su_contexts s)) -> apart (su_contexts s) ->
  exists m, get_tools ord s = Tools m /\
  (forall a o c, first_of (su_contexts s) a o c -> exists t, aget a m = Some t /\ entry a o c t) /\
  (forall a o c c', clash (su_contexts s) a c' c -> provides c a o -> exists t, aget (sc_name c ++ T "_" ++ a) m = Some t /\ entry (sc_name c ++ T "_" ++ a) o c t) /\
  (forall x t, aget x m = Some t ->
     (exists o c, first_of (su_contexts s) x o c /\ entry x o c t) \/
     (exists a o c c', x = sc_name c ++ T "_" ++ a /\ clash (su_contexts s) a c' c /\ provides c a o /\ entry x o c t)).
Proof.
  intros Ho P Em N [A1 A2]. rewrite tools_run, Em. destruct (run_prefix_ok (events ord 0 (su_contexts s))) as [m R]. exists m. split; [exact R|].
  assert (B1 : forall e e', In e (events ord 0 (su_contexts s)) -> In e' (events ord 0 (su_contexts s)) -> fst (snd e') <> pname e).
  { intros e e' H H'. apply events_in in H as [H1 H2], H' as [H1' H2']; try assumption. eapply A1; [exact H1|exact H1'|exact H2|exact H2']. }
  assert (B2 : forall e e', In e (events ord 0 (su_contexts s)) -> In e' (events ord 0 (su_contexts s)) -> pname e = pname e' -> e = e').
  { intros [c [a o]] [c' [a' o']] H H' E. apply events_in in H as [H1 H2], H' as [H1' H2']; try assumption. cbn in H1, H2, H1', H2'.
    destruct (A2 _ _ _ _ _ _ H1 H1' H2 H2' E) as [En ->]. rewrite (names_inj _ c c' N H1 H1' En) in *. destruct H2 as (_ & H2 & _), H2' as (_ & H2' & _). congruence. }
  assert (L := run_prefix _ B1 B2 m R). split; [|split].
  - intros a o c H. exists (tool_of (c, (a, o))). split; [|apply (tool_entry (c, (a, o)))]. apply L. left. exists (c, (a, o)). split; [|reflexivity].
    apply (find_first ord a _ Ho P 0). exists c, o. auto.
  - intros a o c c' H Hp. exists (ptool (c, (a, o))). split; [|apply (ptool_entry (c, (a, o)))]. apply L. right.
    destruct (clash_split ord _ a c' c o Ho P H Hp 0) as (u & v & E & K). exists u, (c, (a, o)), v. auto.
  - intros x t H. apply L in H as [(e & H & ->)|(u & [c [a o]] & v & E & K & -> & ->)].
    + left. apply (find_first ord x _ Ho P 0) in H as (c & o & -> & H). exists o, c. split; [exact H|]. apply (tool_entry (c, (x, o))).
    + right. cbn in K. apply in_map_iff in K as [[c' [a' o']] [Ea K]]. cbn in Ea. subst a'. exists a, o, c, c'. split; [reflexivity|]. split; [|split].
      * exact (events_clash ord _ Ho P 0 u c o v c' o' a E K).
      * assert (K2 : In (c, (a, o)) (events ord 0 (su_contexts s))) by (rewrite E; apply in_app_iff; right; left; reflexivity). apply events_in in K2 as [_ K2]; auto.
      * apply (ptool_entry (c, (a, o))).
Qed.
Lemma table_prefix_sound ord s : every_order ord -> proper (su_contexts s) -> su_mode s = MPrefix -> exists m, get_tools ord s = Tools m /\
  forall x t, aget x m = Some t -> exists c a o, In c (su_contexts s) /\ provides c a o /\ (x = a \/ x = sc_name c ++ T "_" ++ a) /\ entry x o c t.
Proof.
  intros Ho P Em. rewrite tools_run, Em. destruct (run_prefix_ok (events ord 0 (su_contexts s))) as [m R]. exists m. split; [exact R|]. intros x t H.
  destruct (run_prefix_sound _ m R x t H) as ([c [a o]] & He & Hx & Ht). apply events_in in He as [H1 H2]; [|exact Ho|exact P]. exists c, a, o. auto.
Qed.

(** ** What the table does not look at *)
Lemma add_aliases_like md c c' l : sc_name c = sc_name c' -> sc_requests c = sc_requests c' -> sc_hidden c = sc_hidden c' ->
  forall m, add_aliases md c l m = add_aliases md c' l m.
Proof.
  intros E1 E2 E3. induction l as [|[a o] l IH]; intros m; [reflexivity|]. cbn [add_aliases]. unfold visible. rewrite E3. destruct (negb _); [|apply IH].
  assert (A : add_tool md c m a o = add_tool md c' m a o) by (unfold add_tool, first_request; rewrite E1, E2; reflexivity). rewrite A. destruct (add_tool md c' m a o); [apply IH|reflexivity].
Qed.
Lemma add_contexts_like md ord ord' cs cs' : Forall2 (fun c c' => sc_name c = sc_name c' /\ sc_requests c = sc_requests c' /\ sc_hidden c = sc_hidden c' /\ sc_disabled c = sc_disabled c') cs cs' ->
  forall i m, (forall k c c', nth_error cs k = Some c -> nth_error cs' k = Some c' -> ord (i + k) (sc_aliases c) = ord' (i + k) (sc_aliases c')) ->
  add_contexts md ord i cs m = add_contexts md ord' i cs' m.
Proof.
  induction 1 as [|c c' cs cs' (E1 & E2 & E3 & E4) _ IH]; intros i m H; [reflexivity|]. cbn [add_contexts]. rewrite E4.
  assert (H' : forall k d d', nth_error cs k = Some d -> nth_error cs' k = Some d' -> ord (S i + k) (sc_aliases d) = ord' (S i + k) (sc_aliases d')).
  { intros k d d' K K'. replace (S i + k) with (i + S k) by lia. apply H; assumption. }
  destruct (sc_disabled c'); [apply IH, H'|]. assert (H0 := H 0 c c' eq_refl eq_refl). rewrite Nat.add_0_r in H0. rewrite H0, (add_aliases_like md c c' _ E1 E2 E3).
  destruct (add_aliases md c' (ord' i (sc_aliases c')) m); [apply IH, H'|reflexivity].
Qed.
Lemma Forall2_nth {A B} (R : A -> B -> Prop) l l' : Forall2 R l l' -> forall k x y, nth_error l k = Some x -> nth_error l' k = Some y -> R x y.
Proof. induction 1 as [|a b l l' H _ IH]; intros [|k] x y K K'; try discriminate; [injection K as <-; injection K' as <-; exact H|exact (IH k x y K K')]. Qed.
Lemma tools_rank ord s s' : Forall2 same_but_rank (su_contexts s) (su_contexts s') -> su_mode s = su_mode s' -> get_tools ord s = get_tools ord s'.
Proof.
  intros F E. unfold get_tools. rewrite E. apply add_contexts_like.
  - clear E. induction F as [|c c' l l' (A & B & _ & D & G) _ IH]; constructor; auto.
  - intros k c c' K K'. destruct (Forall2_nth _ _ _ F k c c' K K') as (_ & _ & -> & _). reflexivity.
Qed.
Definition pair_dec (x y : text * text) : {x = y} + {x <> y}.
Proof. decide equality; apply (list_eq_dec ascii_dec). Defined.
Lemma tools_same ord' s s' : every_order ord' -> same_suite s s' -> exists ord, every_order ord /\ get_tools ord s = get_tools ord' s'.
Proof.
  intros Ho (F & _ & Em).
  exists (fun j l => match nth_error (su_contexts s) j, nth_error (su_contexts s') j with
    | Some c, Some c' => if list_eq_dec pair_dec l (sc_aliases c) then ord' j (sc_aliases c') else l | _, _ => l end). split.
  - intros j l. destruct (nth_error (su_contexts s) j) as [c|] eqn:K; [|apply Permutation_refl]. destruct (nth_error (su_contexts s') j) as [c'|] eqn:K'; [|apply Permutation_refl].
    destruct (list_eq_dec pair_dec l (sc_aliases c)) as [->|]; [|apply Permutation_refl]. destruct (Forall2_nth _ _ _ F j c c' K K') as (_ & _ & Q & _).
    eapply Permutation_trans; [apply Ho|apply Permutation_sym, Q].
  - unfold get_tools. rewrite Em. apply add_contexts_like.
    + clear Em. induction F as [|c c' l l' (A & B & C & D & E1 & E2 & E3) _ IH]; constructor; auto.
    + intros k c c' K K'. cbn [Nat.add]. rewrite K, K'. destruct (list_eq_dec pair_dec (sc_aliases c) (sc_aliases c)); [reflexivity|congruence].
Qed.

(** ** Files *)
Lemma yaml_not_marker p q : yaml_path p <> marker_path q.
Proof. unfold yaml_path, marker_path. intros E. apply (f_equal (fun l => hd "a" (rev l))) in E. rewrite !rev_app_distr in E. discriminate E. Qed.
Lemma yaml_inj p q : yaml_path p = yaml_path q -> p = q.
Proof. apply app_inv_tail. Qed.
Lemma load_put read p t d : load read p (aput (yaml_path p) t d) = match read t with Some f => Some (mkSuite (sf_contexts f) (sf_desc f) (file_mode f)) | None => None end.
Proof. unfold load. rewrite aget_put_same. reflexivity. Qed.
Lemma load_marker read p q t d : load read p (aput (marker_path q) t d) = load read p d.
Proof. unfold load. rewrite aget_put_other by apply yaml_not_marker. reflexivity. Qed.
Lemma load_written write read p s d : faithful write read -> exists s', load read p (aput (yaml_path p) (write (to_file s)) d) = Some s' /\ same_suite s s'.
Proof.
  intros [_ Hf]. rewrite load_put. destruct (Hf (to_file s)) as (g & -> & F & D & M). eexists. split; [reflexivity|]. split; [exact F|]. split; [exact D|]. cbn [su_mode].
  unfold file_mode. rewrite <- M. cbn [to_file sf_mode]. destruct (su_mode s); reflexivity.
Qed.
Lemma load_saved write read p s d : faithful write read -> exists s', load read p (save write p s d) = Some s' /\ same_suite s s'.
Proof. intros H. unfold save, save_steps. cbn [last]. rewrite load_marker. apply load_written, H. Qed.
Lemma saved_others write p s d q : q <> yaml_path p -> q <> marker_path p -> aget q (save write p s d) = aget q d.
Proof. intros A B. unfold save, save_steps. cbn [last]. rewrite !aget_put_other by assumption. reflexivity. Qed.
Lemma load_others write read p q s d : p <> q -> load read q (save write p s d) = load read q d.
Proof. intros N. unfold load. rewrite saved_others; [reflexivity| |apply yaml_not_marker]. intros E. apply N. symmetry. apply yaml_inj, E. Qed.
Lemma ahas_put {V} k k' (v : V) m : ahas k (aput k' v m) = text_eqb k k' || ahas k m.
Proof.
  unfold ahas. destruct (text_eqb_spec k k') as [->|N]; [rewrite aget_put_same; reflexivity|]. rewrite aget_put_other by exact N. reflexivity.
Qed.
Lemma saved_is_suite write p s d : is_suite p (save write p s d) = true.
Proof. unfold is_suite, save, save_steps. cbn [last]. rewrite !ahas_put, !text_eqb_refl. rewrite orb_true_r. reflexivity. Qed.
Lemma save_cut write read p s d d' : faithful write read -> In d' (save_steps write p s d) ->
  d' = d \/ (load read p d' = None /\ aget (yaml_path p) d' = Some []) \/ exists s', load read p d' = Some s' /\ same_suite s s'.
Proof.
  intros H [<-|[<-|[<-|[<-|[]]]]].
  - auto.
  - right. left. rewrite load_put, (proj1 H). split; [reflexivity|apply aget_put_same].
  - right. right. apply load_written, H.
  - right. right. rewrite load_marker. apply load_written, H.
Qed.
Lemma cut_others write read p q s d d' : p <> q -> In d' (save_steps write p s d) -> load read q d' = load read q d.
Proof.
  intros N. assert (Ny : yaml_path q <> yaml_path p) by (intros E; apply N; symmetry; apply yaml_inj, E).
  intros [<-|[<-|[<-|[<-|[]]]]]; rewrite ?load_marker; unfold load; rewrite ?aget_put_other by exact Ny; reflexivity.
Qed.
Lemma load_suite_first read n d u b v : (forall x, In x (u ++ b :: v) -> ahas (marker_path (x ++ T "/" ++ n)) d = true -> ahas (yaml_path (x ++ T "/" ++ n)) d = true) ->
  (forall x, In x u -> ahas (yaml_path (x ++ T "/" ++ n)) d = false) -> ahas (yaml_path (b ++ T "/" ++ n)) d = true ->
  load_suite read (u ++ b :: v) n d = load read (b ++ T "/" ++ n) d.
Proof.
  intros Hm Hu Hb. induction u as [|x u IH].
  - cbn [app load_suite]. unfold is_suite. rewrite Hb. reflexivity.
  - cbn [app load_suite]. unfold is_suite. rewrite (Hu x (or_introl eq_refl)). destruct (ahas (marker_path (x ++ T "/" ++ n)) d) eqn:M.
    + specialize (Hu x (or_introl eq_refl)). rewrite (Hm x (or_introl eq_refl) M) in Hu. discriminate.
    + cbn [orb]. apply IH; [intros y Hy; apply Hm; right; exact Hy|intros y Hy; apply Hu; right; exact Hy].
Qed.
Lemma load_suite_none read n d paths : (forall x, In x paths -> is_suite (x ++ T "/" ++ n) d = false) -> load_suite read paths n d = None.
Proof. induction paths as [|x l IH]; intros H; [reflexivity|]. cbn [load_suite]. rewrite (H x (or_introl eq_refl)). apply IH. intros y Hy. apply H. right. exact Hy. Qed.
Lemma saved_found write read b n s d u v : faithful write read -> (forall x, In x u -> is_suite (x ++ T "/" ++ n) d = false /\ x ++ T "/" ++ n <> b ++ T "/" ++ n) ->
  exists s', load_suite read (u ++ b :: v) n (save write (b ++ T "/" ++ n) s d) = Some s' /\ same_suite s s'.
Proof.
  intros H Hu. induction u as [|x u IH].
  - cbn [app load_suite]. rewrite saved_is_suite. apply load_saved, H.
  - cbn [app load_suite]. destruct (Hu x (or_introl eq_refl)) as [Hx N].
    assert (Q : is_suite (x ++ T "/" ++ n) (save write (b ++ T "/" ++ n) s d) = false).
    { transitivity (is_suite (x ++ T "/" ++ n) d); [|exact Hx]. unfold is_suite, ahas. rewrite (saved_others write _ s d (yaml_path (x ++ T "/" ++ n))), (saved_others write _ s d (marker_path (x ++ T "/" ++ n))); [reflexivity| | | |].
      - intros E. symmetry in E. exact (yaml_not_marker _ _ E).
      - intros E. apply N. unfold marker_path in E. apply app_inv_tail in E. exact E.
      - intros E. apply N, yaml_inj, E.
      - apply yaml_not_marker. }
    rewrite Q. apply IH. intros y Hy. apply Hu. right. exact Hy.
Qed.
Lemma same_fine s s' : same_suite s s' -> fine s -> fine s'.
Proof.
  intros (F & _) (N & G & P). assert (E : map sc_name (su_contexts s) = map sc_name (su_contexts s')).
  { clear N G P. induction F as [|c c' l l' H _ IH]; [reflexivity|]. cbn. rewrite IH, (proj1 H). reflexivity. }
  split; [rewrite <- E; exact N|]. clear E N. split; intros c' Hc'.
  - clear P. induction F as [|c d l l' H _ IH]; [destruct Hc'|]. destruct Hc' as [<-|Hc'].
    + rewrite <- (proj1 H). apply G. left. reflexivity.
    + apply IH; [intros x Hx; apply G; right; exact Hx|exact Hc'].
  - clear G. induction F as [|c d l l' H _ IH]; [destruct Hc'|]. destruct Hc' as [<-|Hc'].
    + destruct H as (_ & _ & H & _). apply (Permutation_NoDup (Permutation_map fst H)). apply P. left. reflexivity.
    + apply IH; [intros x Hx; apply P; right; exact Hx|exact Hc'].
Qed.
