(** Proofs about Rex actions and variable expansion. *)
From Verif Require Import Base Base_lemmas Maps Sorting Order_spec Range_model Requirement_text Rex_model Rex_spec.
Open Scope char_scope.

(** ** Actions *)
Lemma live_exists l : exists p, live l p.
Proof.
  induction l as [|a l [p IH]]; [exists []; constructor|].
  destruct a; try (eexists; apply live_go; [discriminate|exact IH]). eexists. constructor.
Qed.
Lemma live_unique l p q : live l p -> live l q -> p = q.
Proof.
  intros H. revert q. induction H as [|m l|a l p Hn Hl IH]; intros q Hq; inversion Hq; subst; try reflexivity.
  - exfalso. eapply H1. reflexivity.
  - exfalso. eapply Hn. reflexivity.
  - f_equal. auto.
Qed.
Lemma apply_live win l p : live l p -> forall e, apply win e l = fold_left (apply_action win) p e.
Proof.
  induction 1 as [|m l|a l p Hn Hl IH]; intros e; [reflexivity|reflexivity|].
  cbn [apply fold_left]. rewrite <- IH. destruct a; try reflexivity. exfalso. eapply Hn. reflexivity.
Qed.
Lemma action_var win e a x :
  aget x (e_vars (apply_action win e a)) =
  match writes a with Some n => if text_eqb x n then written (path_sep win) (aget x (e_vars e)) a else aget x (e_vars e) | None => aget x (e_vars e) end.
Proof.
  assert (HP : forall n v, aget x (aput n v (e_vars e)) = if text_eqb x n then Some v else aget x (e_vars e)).
  { intros n v. destruct (text_eqb_spec x n) as [->|N]; [apply aget_put_same|apply aget_put_other, N]. }
  assert (HD : forall n, aget x (adel n (e_vars e)) = if text_eqb x n then None else aget x (e_vars e)).
  { intros n. destruct (text_eqb_spec x n) as [->|N]; [apply aget_del_same|apply aget_del_other, N]. }
  destruct a; cbn [apply_action writes e_vars set_vars]; try reflexivity; rewrite ?HP, ?HD.
  - destruct (text_eqb_spec x name); reflexivity.
  - destruct (text_eqb_spec x name); reflexivity.
  - destruct (text_eqb_spec x name) as [->|]; [|reflexivity]. cbn [written].
    destruct (aget name (e_vars e)) as [[|c r]|]; cbn [or_empty is_nil]; reflexivity.
  - destruct (text_eqb_spec x name) as [->|]; [|reflexivity]. cbn [written].
    destruct (aget name (e_vars e)) as [[|c r]|]; cbn [or_empty is_nil]; reflexivity.
  - unfold ahas. destruct (text_eqb_spec x name) as [->|N].
    + destruct (aget name (e_vars e)) eqn:E; cbn [written]; [exact E|]. cbn [e_vars set_vars]. rewrite HP, text_eqb_refl. reflexivity.
    + destruct (aget name (e_vars e)) eqn:E; [reflexivity|]. cbn [e_vars set_vars]. rewrite HP. destruct (text_eqb_spec x name); [contradiction|reflexivity].
  - destruct (text_eqb_spec x name); reflexivity.
Qed.
Lemma fold_var win x p q : on_var x p q -> forall e,
  aget x (e_vars (fold_left (apply_action win) p e)) = fold_left (written (path_sep win)) q (aget x (e_vars e)).
Proof.
  induction 1 as [|a l p Hw H IH|a l p Hw H IH]; intros e; [reflexivity|cbn [fold_left]..]; rewrite IH, action_var.
  - rewrite Hw, text_eqb_refl. reflexivity.
  - destruct (writes a) as [n|] eqn:E; [|reflexivity]. destruct (text_eqb_spec x n) as [->|]; [congruence|reflexivity].
Qed.
Lemma on_var_exists x l : exists p, on_var x l p.
Proof.
  induction l as [|a l [p IH]]; [exists []; constructor|].
  destruct (writes a) as [n|] eqn:E; [destruct (text_eq_dec n x) as [->|N]|].
  - eexists. apply on_hit; eauto.
  - exists p. apply on_miss; [congruence|exact IH].
  - exists p. apply on_miss; [congruence|exact IH].
Qed.
Lemma vars_after win e l p x q : live l p -> on_var x p q ->
  aget x (e_vars (apply win e l)) = fold_left (written (path_sep win)) q (aget x (e_vars e)).
Proof. intros Hl Ho. rewrite (apply_live win l p Hl). apply fold_var, Ho. Qed.

Lemma others_after win l p : live l p -> forall e,
  let e' := apply win e l in
  e_startup e' = e_startup e ++ flat_map (fun a => match a with Command c => [c] | _ => [] end) p /\
  e_sourced e' = e_sourced e ++ flat_map (fun a => match a with Source c => [c] | _ => [] end) p /\
  e_infos e' = e_infos e ++ flat_map (fun a => match a with Info m => [m] | Error m => [T "[error] " ++ m] | _ => [] end) p /\
  (e_stopped e' = true <-> e_stopped e = true \/ exists m, In (Stop m) l) /\
  (forall m, In (Stop m) p -> e_stop_msg e' = m).
Proof.
  induction 1 as [|m l|a l p Hn Hl IH]; intros e.
  - cbn. rewrite !app_nil_r. repeat split; auto; [intros [H|[m []]]; exact H|intros m []].
  - cbn. rewrite !app_nil_r. repeat split; eauto. intros m' [[= ->]|[]]. reflexivity.
  - assert (E : apply win e (a :: l) = apply win (apply_action win e a) l) by (destruct a; try reflexivity; exfalso; eapply Hn; reflexivity).
    cbv zeta. rewrite E. destruct (IH (apply_action win e a)) as (H1 & H2 & H3 & H4 & H5).
    rewrite H1, H2, H3. cbn [flat_map].
    assert (K : e_stopped (apply_action win e a) = e_stopped e).
    { destruct a; try reflexivity; [|exfalso; eapply Hn; reflexivity]. cbn [apply_action]. destruct (ahas _ _); reflexivity. }
    assert (D : forall A (u : list A), u ++ [] = u) by (intros; apply app_nil_r).
    repeat split.
    + destruct a; try reflexivity; cbn [apply_action]; try (destruct (ahas _ _); reflexivity). cbn [e_startup]. rewrite <- app_assoc. reflexivity.
    + destruct a; try reflexivity; cbn [apply_action]; try (destruct (ahas _ _); reflexivity). cbn [e_sourced]. rewrite <- app_assoc. reflexivity.
    + destruct a; try reflexivity; cbn [apply_action]; try (destruct (ahas _ _); reflexivity); cbn [e_infos]; rewrite <- app_assoc; reflexivity.
    + intros H. apply H4 in H as [H|[m H]]; [left; congruence|right; exists m; right; exact H].
    + intros [H|[m [H|H]]]; apply H4; [left; congruence| |right; eauto]. exfalso. eapply Hn. exact H.
    + intros m [H|H]; [exfalso; eapply Hn; exact H|]. apply H5, H.
Qed.
(** aliases are written by the last [Alias] *)
Lemma fold_alias win x : forall p e,
  aget x (e_aliases (fold_left (apply_action win) p e)) =
  fold_left (fun o a => match a with Alias n v => if text_eqb x n then Some v else o | _ => o end) p (aget x (e_aliases e)).
Proof.
  induction p as [|a p IH]; intros e; [reflexivity|]. cbn [fold_left]. rewrite IH. f_equal.
  destruct a; cbn [apply_action]; try reflexivity; try (destruct (ahas _ _); reflexivity).
  cbn [e_aliases]. destruct (text_eqb_spec x name) as [->|N]; [apply aget_put_same|apply aget_put_other, N].
Qed.
Lemma alias_after win e l p x : live l p ->
  aget x (e_aliases (apply win e l)) =
  fold_left (fun o a => match a with Alias n v => if text_eqb x n then Some v else o | _ => o end) p (aget x (e_aliases e)).
Proof. intros H. rewrite (apply_live win l p H). apply fold_alias. Qed.

Lemma join_cons sep p ps : ps <> [] -> join sep (p :: ps) = p ++ sep ++ join sep ps.
Proof. destruct ps; [congruence|reflexivity]. Qed.
Lemma join_app sep a b : a <> [] -> b <> [] -> join sep (a ++ b) = join sep a ++ sep ++ join sep b.
Proof.
  intros Ha Hb. induction a as [|x a IH]; [congruence|]. destruct a as [|y a].
  - cbn [app]. rewrite join_cons by exact Hb. reflexivity.
  - cbn [app]. rewrite (join_cons sep x) by discriminate. rewrite (join_cons sep x) by discriminate.
    cbn [app] in IH. rewrite IH by discriminate. rewrite <- !app_assoc. reflexivity.
Qed.
Lemma join_nonempty sep a b c r : join sep (a ++ (c :: r) :: b) <> [].
Proof.
  induction a as [|x a IH]; cbn [app].
  - destruct b; discriminate.
  - rewrite join_cons by (destruct a; discriminate). intros H. apply app_eq_nil in H as [_ H]. apply app_eq_nil in H as [_ H]. exact (IH H).
Qed.
Lemma path_fold sep : forall l c r, Forall path_action l ->
  fold_left (written sep) l (Some (c :: r)) = Some (join sep (fronts l ++ (c :: r) :: backs l)).
Proof.
  assert (G : forall l A B c r, Forall path_action l ->
    fold_left (written sep) l (Some (join sep (A ++ (c :: r) :: B))) = Some (join sep (fronts l ++ A ++ (c :: r) :: B ++ backs l))).
  { induction l as [|a l IH]; intros A B c r H; [cbn; rewrite app_nil_r; reflexivity|]. inversion H as [|? ? Ha Hl]; subst. cbn [fold_left].
    destruct (join sep (A ++ (c :: r) :: B)) as [|x y] eqn:E; [destruct (join_nonempty _ _ _ _ _ E)|].
    destruct a as [| |n v s|n v s| | | | | | | | |]; try contradiction; destruct s; try (destruct v; contradiction); cbn [written fronts backs].
    - rewrite <- E. replace (v ++ sep ++ join sep (A ++ (c :: r) :: B)) with (join sep ((v :: A) ++ (c :: r) :: B)).
      + etransitivity; [apply (IH (v :: A) B c r Hl)|]. rewrite <- !app_assoc. reflexivity.
      + cbn [app]. rewrite join_cons; [reflexivity|destruct A; discriminate].
    - rewrite <- E. replace (join sep (A ++ (c :: r) :: B) ++ sep ++ v) with (join sep (A ++ (c :: r) :: (B ++ [v]))).
      + etransitivity; [apply (IH A (B ++ [v]) c r Hl)|]. rewrite <- !app_assoc. reflexivity.
      + replace (A ++ (c :: r) :: B ++ [v]) with ((A ++ (c :: r) :: B) ++ [v]) by (rewrite <- app_assoc; reflexivity).
        rewrite join_app; [reflexivity|destruct A; discriminate|discriminate]. }
  intros l c r H. apply (G l [] [] c r H).
Qed.

(** merging with a base environment *)
Lemma merge_fold : forall l m x, NoDup (map fst l) ->
  aget x (fold_left (fun m (kv : text * text) => if ahas (fst kv) m then m else aput (fst kv) (snd kv) m) l m) =
  match aget x m with Some v => Some v | None => aget x l end.
Proof.
  induction l as [|[k v] l IH]; intros m x Hn; cbn [fold_left]; [destruct (aget x m); reflexivity|].
  cbn [map fst] in Hn. inversion Hn as [|? ? Hk Hl]; subst. rewrite IH by exact Hl. cbn [fst snd aget]. unfold ahas.
  destruct (text_eqb_spec x k) as [->|N].
  - destruct (aget k m) eqn:E; [rewrite E; reflexivity|]. rewrite aget_put_same. reflexivity.
  - destruct (aget k m); [reflexivity|]. rewrite aget_put_other by exact N. reflexivity.
Qed.
Lemma aget_perm {A} (l l' : list (text * A)) x : NoDup (map fst l) -> Permutation l l' -> aget x l = aget x l'.
Proof.
  intros Hn Hp. assert (Hn' : NoDup (map fst l')) by (eapply Permutation_NoDup; [apply Permutation_map, Hp|exact Hn]).
  destruct (aget x l') as [v|] eqn:E.
  - apply aget_in in E. apply aget_nodup; [exact Hn|]. eapply Permutation_in; [apply Permutation_sym, Hp|exact E].
  - apply aget_none in E. apply aget_none. intros H. apply E. unfold akeys in *. eapply Permutation_in; [apply Permutation_map, Hp|exact H].
Qed.
Lemma merge_base ord e base x : any_order ord -> NoDup (map fst base) ->
  aget x (e_vars (merge_with_base ord e base)) = match aget x (e_vars e) with Some v => Some v | None => aget x base end.
Proof.
  intros Ho Hn. unfold merge_with_base. cbn [e_vars set_vars]. specialize (Ho base).
  assert (Hn' : NoDup (map fst (ord base))) by (eapply Permutation_NoDup; [apply Permutation_map, Permutation_sym, Ho|exact Hn]).
  rewrite merge_fold by exact Hn'. rewrite <- (aget_perm base (ord base) x Hn (Permutation_sym Ho)). reflexivity.
Qed.

(** ** Expansion *)
Lemma starts_with_app_inv p s : starts_with p s = true -> exists r, s = p ++ r.
Proof. apply starts_with_spec. Qed.
Lemma repl_skip p v : forall k s, repl p v k s = repl p v 0 (skipn k s).
Proof.
  induction k as [|k IH]; intros s; [reflexivity|]. destruct s as [|c r]; [reflexivity|]. cbn [repl skipn]. apply IH.
Qed.
Lemma replace_hit c p v r : replace (c :: p) v ((c :: p) ++ r) = v ++ replace (c :: p) v r.
Proof.
  unfold replace. cbn [app repl]. change (c :: p ++ r) with ((c :: p) ++ r). rewrite starts_with_app. f_equal.
  cbn [Datatypes.length]. rewrite Nat.sub_1_r. cbn [Nat.pred]. rewrite repl_skip. f_equal.
  rewrite skipn_app, skipn_all, Nat.sub_diag. reflexivity.
Qed.
Lemma replace_miss p v c r : starts_with p (c :: r) = false -> replace p v (c :: r) = c :: replace p v r.
Proof. intros H. unfold replace. cbn [repl]. rewrite H. reflexivity. Qed.
Lemma replace_none p v c q : p = c :: q -> forall s, ~ In c s -> replace p v s = s.
Proof.
  intros ->. induction s as [|x s IH]; intros H; [reflexivity|]. rewrite replace_miss.
  - f_equal. apply IH. intros K. apply H. right. exact K.
  - cbn [starts_with]. destruct (Ascii.eqb_spec c x); [subst; destruct H; left; reflexivity|reflexivity].
Qed.
Lemma replace_prefix p v c q : p = c :: q -> forall a s, ~ In c a -> replace p v (a ++ s) = a ++ replace p v s.
Proof.
  intros ->. induction a as [|x a IH]; intros s H; [reflexivity|]. cbn [app]. rewrite replace_miss.
  - f_equal. apply IH. intros K. apply H. right. exact K.
  - cbn [starts_with]. destruct (Ascii.eqb_spec c x); [subst; destruct H; left; reflexivity|reflexivity].
Qed.
(** a reference is determined by the text it starts *)
Lemma ref_unique k r k' r' : ~ In "}" k -> ~ In "}" k' -> k ++ "}" :: r = k' ++ "}" :: r' -> k = k' /\ r = r'.
Proof.
  revert k'. induction k as [|c k IH]; intros k' H H' E.
  - destruct k' as [|d k']; [injection E as ->; auto|]. cbn in E. injection E as <- _. destruct H'. left. reflexivity.
  - destruct k' as [|d k']; [cbn in E; injection E as -> _; destruct H; left; reflexivity|]. cbn in E. injection E as <- E.
    apply IH in E as [-> ->]; [auto| |]; intros K; [apply H|apply H']; right; exact K.
Qed.
Definition brace_key (k : text) : text := "{" :: k ++ ["}"].
Lemma brace_key_app k r : brace_key k ++ r = "{" :: k ++ "}" :: r.
Proof. unfold brace_key. cbn [app]. rewrite <- app_assoc. reflexivity. Qed.
Definition swap1 (k v s : text) : text := replace (brace_key k) v s.
Lemma swap1_hit k v r : swap1 k v ("{" :: k ++ "}" :: r) = v ++ swap1 k v r.
Proof. unfold swap1. rewrite <- brace_key_app. apply replace_hit. Qed.
Lemma swap1_lit k v c r : c <> "{" -> swap1 k v (c :: r) = c :: swap1 k v r.
Proof.
  intros H. unfold swap1. apply replace_miss. cbn [brace_key starts_with]. destruct (Ascii.eqb_spec "{" c); [congruence|reflexivity].
Qed.
Lemma swap1_none k v r : ~ In "{" r -> swap1 k v r = r.
Proof. apply replace_none with (q := k ++ ["}"]). reflexivity. Qed.
Lemma swap1_prefix k v a r : ~ In "{" a -> swap1 k v (a ++ r) = a ++ swap1 k v r.
Proof. apply replace_prefix with (q := k ++ ["}"]). reflexivity. Qed.
Lemma swap1_tok k v b r : ~ In "}" k -> braceless b -> b <> k -> swap1 k v ("{" :: b ++ "}" :: r) = "{" :: b ++ "}" :: swap1 k v r.
Proof.
  intros Hk [Hb1 Hb2] Hn. unfold swap1. rewrite replace_miss.
  - f_equal. replace (b ++ "}" :: r) with ((b ++ ["}"]) ++ r) by (rewrite <- app_assoc; reflexivity).
    rewrite replace_prefix with (c := "{") (q := k ++ ["}"]); [rewrite <- app_assoc; reflexivity|reflexivity|].
    intros H. apply in_app_iff in H as [H|[H|[]]]; [exact (Hb1 H)|discriminate].
  - apply not_true_is_false. intros H. apply starts_with_spec in H as [x E]. rewrite brace_key_app in E. injection E as E.
    apply ref_unique in E as [E _]; auto.
Qed.
Lemma swap1_open k v r : ~ In "{" r -> (forall x, r <> k ++ "}" :: x) -> swap1 k v ("{" :: r) = "{" :: r.
Proof.
  intros H Hn. unfold swap1. rewrite replace_miss.
  - f_equal. apply swap1_none, H.
  - apply not_true_is_false. intros K. apply starts_with_spec in K as [x E]. rewrite brace_key_app in E. injection E as E. exact (Hn _ E).
Qed.
(** an opening brace in a text without further opening braces is a reference or stays *)
Lemma flat_braceless a s : ~ In "{" a -> flat s -> flat (a ++ s).
Proof.
  induction a as [|c a IH]; intros H Hs; [exact Hs|]. cbn [app]. apply flat_lit.
  - intros ->. apply H. left. reflexivity.
  - apply IH; [intros K; apply H; right; exact K|exact Hs].
Qed.
Lemma noopen_flat s : ~ In "{" s -> flat s.
Proof. intros H. rewrite <- (app_nil_r s). apply flat_braceless; [exact H|constructor]. Qed.
Lemma text_closed (r : text) : ~ In "}" r \/ exists b x, ~ In "}" b /\ r = b ++ "}" :: x.
Proof.
  induction r as [|c r [IH|(b & x & Hb & ->)]].
  - left. intros [].
  - destruct (ascii_dec c "}") as [->|N]; [right; exists [], r; auto|]. left. intros [H|H]; auto.
  - destruct (ascii_dec c "}") as [->|N]; [right; exists [], (b ++ "}" :: x); auto|]. right. exists (c :: b), x. split; [|reflexivity].
    intros [H|H]; auto.
Qed.
(** so the last constructor of [flat] is only needed for a brace that is never closed *)
Lemma flat_ind' (P : text -> Prop) :
  P [] -> (forall c r, c <> "{" -> flat r -> P r -> P (c :: r)) ->
  (forall b r, braceless b -> flat r -> P r -> P ("{" :: b ++ "}" :: r)) ->
  (forall r, braceless r -> P ("{" :: r)) -> forall s, flat s -> P s.
Proof.
  intros H0 H1 H2 H3.
  assert (HN : forall r, ~ In "{" r -> P r).
  { induction r as [|c r IH]; intros H; [exact H0|]. assert (K : ~ In "{" r) by (intros K; apply H; right; exact K).
    apply H1; [intros ->; apply H; left; reflexivity|apply noopen_flat, K|apply IH, K]. }
  induction 1 as [|c r Hc Hr IH|b r Hb Hr IH|r Hr]; auto.
  destruct (text_closed r) as [Hn|(b & x & Hb & ->)].
  - apply H3. split; assumption.
  - assert (K : ~ In "{" x) by (intros K; apply Hr, in_or_app; right; right; exact K).
    apply H2; [|apply noopen_flat, K|apply HN, K]. split; [|exact Hb]. intros K'. apply Hr, in_or_app. left. exact K'.
Qed.
Lemma swap1_flat k v s : braceless k -> braceless v -> flat s -> flat (swap1 k v s).
Proof.
  intros Hk [Hv _] Hs. induction Hs as [|c r Hc Hr IH|b r Hb Hr IH|r Hr] using flat_ind'.
  - constructor.
  - rewrite swap1_lit by exact Hc. apply flat_lit; assumption.
  - destruct (text_eq_dec b k) as [->|N].
    + rewrite swap1_hit. apply flat_braceless; assumption.
    + rewrite swap1_tok; [|exact (proj2 Hk)|exact Hb|exact N]. apply flat_tok; assumption.
  - rewrite swap1_open; [apply flat_open, Hr|exact (proj1 Hr)|]. intros x E. apply (proj2 Hr). rewrite E. apply in_or_app. right. left. reflexivity.
Qed.
(** ** One step at a time or all at once *)
Lemma Exp_braceless ctx a r t : ~ In "{" a -> Expands ctx (a ++ r) t -> exists t', t = a ++ t' /\ Expands ctx r t'.
Proof.
  revert t. induction a as [|c a IH]; intros t H He; [exists t; auto|]. cbn [app] in He.
  assert (Hc : c <> "{") by (intros ->; apply H; left; reflexivity).
  inversion He as [|k v q t0 Hin Hr|c0 r0 t0 Hno Hr]; subst; [congruence|].
  apply IH in Hr as (t' & -> & Hr); [exists t'; auto|]. intros K. apply H. right. exact K.
Qed.
Lemma Exp_tok_miss ctx b r t : (forall k v, In (k, v) ctx -> ~ In "}" k) -> braceless b -> ~ In b (map fst ctx) ->
  Expands ctx ("{" :: b ++ "}" :: r) t -> exists t', t = "{" :: b ++ "}" :: t' /\ Expands ctx r t'.
Proof.
  intros Hk [Hb1 Hb2] Hn He. inversion He as [|k v q t0 Hin Hr E|c0 r0 t0 Hno Hr]; subst.
  - apply ref_unique in E as [-> _]; [|eauto|exact Hb2]. destruct Hn. apply in_map with (f := fst) in Hin. exact Hin.
  - replace (b ++ "}" :: r) with ((b ++ ["}"]) ++ r) in Hr by (rewrite <- app_assoc; reflexivity).
    apply Exp_braceless in Hr as (t' & -> & Hr).
    + exists t'. split; [rewrite <- app_assoc; reflexivity|exact Hr].
    + intros H. apply in_app_iff in H as [H|[H|[]]]; [exact (Hb1 H)|discriminate].
Qed.
Lemma step_expands ctx k v s t :
  (forall k' v', In (k', v') ctx -> ~ In "}" k') -> braceless k -> braceless v -> ~ In k (map fst ctx) -> flat s ->
  Expands ctx (swap1 k v s) t -> Expands ((k, v) :: ctx) s t.
Proof.
  intros Hctx Hk Hv Hn Hs. revert t.
  induction Hs as [|c r Hc Hr IH|b r Hb Hr IH|r Hr] using flat_ind'; intros t He.
  - inversion He; subst. constructor.
  - rewrite swap1_lit in He by exact Hc. apply (Exp_braceless ctx [c]) in He as (t' & -> & He).
    + apply Exp_lit; [|apply IH, He]. intros k' v' q _ E. congruence.
    + intros [->|[]]. exact (Hc eq_refl).
  - destruct (text_eq_dec b k) as [->|N].
    + rewrite swap1_hit in He. apply Exp_braceless in He as (t' & -> & He); [|exact (proj1 Hv)].
      apply Exp_ref; [left; reflexivity|apply IH, He].
    + rewrite swap1_tok in He; [|exact (proj2 Hk)|exact Hb|exact N].
      destruct (in_dec text_eq_dec b (map fst ctx)) as [Hin|Hno].
      * inversion He as [|k' v' q t0 Hin' Hr' E|c0 r0 t0 Hlit Hr']; subst.
        -- apply ref_unique in E as [-> ->]; [|eauto|exact (proj2 Hb)]. apply Exp_ref; [right; exact Hin'|apply IH, Hr'].
        -- apply in_map_iff in Hin as ([b' v'] & E & Hin). cbn in E. subst b'. destruct (Hlit b v' (swap1 k v r) Hin). reflexivity.
      * apply Exp_tok_miss in He as (t' & -> & He); [|exact Hctx|exact Hb|exact Hno].
        apply Exp_lit.
        -- intros k' v' q Hin E. injection E as E. apply ref_unique in E as [<- _]; [|exact (proj2 Hb)|].
           ++ destruct Hin as [[= -> ->]|Hin]; [congruence|]. apply Hno. apply in_map with (f := fst) in Hin. exact Hin.
           ++ destruct Hin as [[= -> ->]|Hin]; [exact (proj2 Hk)|eauto].
        -- assert (L : forall a x y, ~ In "{" a -> Expands ((k, v) :: ctx) x y -> Expands ((k, v) :: ctx) (a ++ x) (a ++ y)).
           { induction a as [|c a IHa]; intros x y Ha Hxy; [exact Hxy|]. cbn [app]. apply Exp_lit.
             - intros k' v' q _ E. injection E as -> _. apply Ha. left. reflexivity.
             - apply IHa; [intros K; apply Ha; right; exact K|exact Hxy]. }
           replace (b ++ "}" :: r) with ((b ++ ["}"]) ++ r) by (rewrite <- app_assoc; reflexivity).
           replace (b ++ "}" :: t') with ((b ++ ["}"]) ++ t') by (rewrite <- app_assoc; reflexivity).
           apply L; [|apply IH, He]. intros H. apply in_app_iff in H as [H|[H|[]]]; [exact (proj1 Hb H)|discriminate].
  - assert (Hop : forall x, r <> k ++ "}" :: x).
    { intros x ->. apply (proj2 Hr), in_or_app. right. left. reflexivity. }
    rewrite swap1_open in He; [|exact (proj1 Hr)|exact Hop].
    inversion He as [|k' v' q t0 Hin Hr'|c0 r0 t0 Hlit Hr']; subst.
    + exfalso. apply (proj2 Hr), in_or_app. right. left. reflexivity.
    + apply Exp_lit.
      * intros k' v' q Hin E. injection E as E. apply (proj2 Hr). rewrite E. apply in_or_app. right. left. reflexivity.
      * replace r with (r ++ []) in Hr' |- * by apply app_nil_r. apply Exp_braceless in Hr' as (t' & -> & He'); [|exact (proj1 Hr)].
        assert (L : forall a x y, ~ In "{" a -> Expands ((k, v) :: ctx) x y -> Expands ((k, v) :: ctx) (a ++ x) (a ++ y)).
        { induction a as [|c a IHa]; intros x y Ha Hxy; [exact Hxy|]. cbn [app]. apply Exp_lit.
          - intros k' v' q _ E. injection E as -> _. apply Ha. left. reflexivity.
          - apply IHa; [intros K; apply Ha; right; exact K|exact Hxy]. }
        apply L; [exact (proj1 Hr)|]. inversion He'; subst. constructor.
Qed.
(** dollar references never occur in calm texts *)
Lemma calm_tail ctx c s : calm ctx (c :: s) -> calm ctx s.
Proof. intros H a d b ->. apply (H (c :: a) d b). reflexivity. Qed.
Lemma calm_no_dollar ctx k v s : In (k, v) ctx -> k <> [] -> calm ctx s -> replace ("$" :: map to_upper k) v s = s.
Proof.
  intros Hin Hk. destruct k as [|c k]; [congruence|]. cbn [map]. induction s as [|x s IH]; intros H; [reflexivity|].
  rewrite replace_miss; [f_equal; apply IH, (calm_tail ctx x), H|].
  cbn [starts_with]. destruct (Ascii.eqb_spec "$" x) as [<-|_]; [|reflexivity]. cbn [andb].
  destruct s as [|d s]; [reflexivity|]. destruct (H [] d s eq_refl) as [_ Hd].
  destruct (Ascii.eqb_spec (to_upper c) d) as [E|_]; [|reflexivity]. exfalso. exact (Hd (c :: k) v c k Hin eq_refl E).
Qed.
(** calm as a recursive condition *)
Definition head_ok (ctx : list (text * text)) (s : text) : Prop :=
  match s with [] => True | d :: _ => d <> "{" /\ forall k v c r, In (k, v) ctx -> k = c :: r -> to_upper c <> d end.
Lemma calm_cons ctx c s : calm ctx (c :: s) <-> (c = "$" -> head_ok ctx s) /\ calm ctx s.
Proof.
  split.
  - intros H. split; [|apply (calm_tail ctx c), H]. intros ->. destruct s as [|d s]; [exact I|]. apply (H [] d s). reflexivity.
  - intros [H1 H2] a d b E. destruct a as [|x a].
    + cbn in E. injection E as -> ->. apply (H1 eq_refl).
    + cbn in E. injection E as <- ->. apply (H2 a d b). reflexivity.
Qed.
Lemma calm_app_nodollar ctx a s : ~ In "$" a -> calm ctx s -> calm ctx (a ++ s).
Proof.
  induction a as [|c a IH]; intros H Hs; [exact Hs|]. cbn [app]. apply calm_cons. split.
  - intros ->. exfalso. apply H. left. reflexivity.
  - apply IH; [intros K; apply H; right; exact K|exact Hs].
Qed.
Lemma calm_replace_tail ctx a c s s' : calm ctx (a ++ c :: s) -> c <> "$" -> calm ctx s' -> calm ctx (a ++ c :: s').
Proof.
  induction a as [|x a IH]; cbn [app]; intros H Hc Hs.
  - apply calm_cons. split; [congruence|exact Hs].
  - apply calm_cons in H as [H1 H2]. apply calm_cons. split.
    + intros E. specialize (H1 E). destruct a; exact H1.
    + apply IH; assumption.
Qed.
Lemma calm_drop ctx a s : calm ctx (a ++ s) -> calm ctx s.
Proof. induction a as [|c a IH]; intros H; [exact H|]. apply IH, (calm_tail ctx c), H. Qed.
Lemma swap1_calm ctx k v s : braceless k -> ~ In "$" v -> flat s -> calm ctx s -> calm ctx (swap1 k v s).
Proof.
  intros Hk Hv Hs. induction Hs as [|c r Hc Hr IH|b r Hb Hr IH|r Hr] using flat_ind'; intros H.
  - exact H.
  - rewrite swap1_lit by exact Hc. apply calm_cons in H as [H1 H2]. apply calm_cons. split; [|apply IH, H2].
    intros E. specialize (H1 E). destruct r as [|d r]; [exact I|]. destruct H1 as [Hd H1]. rewrite swap1_lit by exact Hd. split; assumption.
  - assert (Hr' : calm ctx r).
    { apply (calm_drop ctx ("{" :: b ++ ["}"])). cbn [app]. rewrite <- app_assoc. exact H. }
    destruct (text_eq_dec b k) as [->|N].
    + rewrite swap1_hit. apply calm_app_nodollar; [exact Hv|apply IH, Hr'].
    + rewrite swap1_tok; [|exact (proj2 Hk)|exact Hb|exact N].
      change ("{" :: b ++ "}" :: swap1 k v r) with (("{" :: b) ++ "}" :: swap1 k v r).
      apply calm_replace_tail with (s := r); [exact H|discriminate|apply IH, Hr'].
  - rewrite swap1_open; [exact H|exact (proj1 Hr)|]. intros x E. apply (proj2 Hr). rewrite E. apply in_or_app. right. left. reflexivity.
Qed.
Lemma expand_expands ctx : forall l s, (forall b, In b l -> In b ctx) -> tame ctx -> NoDup (map fst l) -> flat s -> calm ctx s ->
  Expands l s (fold_left expand_one l s).
Proof.
  induction l as [|[k v] l IH]; intros s Hl Ht Hn Hf Hc; cbn [fold_left].
  - clear. induction s as [|c s IH]; [constructor|]. apply Exp_lit; [intros k v q []|exact IH].
  - inversion Hn as [|? ? Hk Hn']; subst.
    destruct (Ht k v (Hl _ (or_introl eq_refl))) as (Hk0 & Hkb & Hvb & Hvd).
    assert (E : expand_one s (k, v) = swap1 k v s).
    { unfold expand_one. cbn [fst snd]. change (replace ("{" :: k ++ ["}"]) v s) with (swap1 k v s).
      apply (calm_no_dollar ctx k v); [apply Hl; left; reflexivity|exact Hk0|apply swap1_calm; assumption]. }
    rewrite E. apply step_expands; try assumption.
    + intros k' v' Hin. destruct (Ht k' v' (Hl _ (or_intror Hin))) as (_ & [_ H] & _). exact H.
    + apply IH; try assumption; [intros b Hb; apply Hl; right; exact Hb|apply swap1_flat; assumption|apply swap1_calm; assumption].
Qed.
Lemma Expands_incl l l' s t : (forall b, In b l <-> In b l') -> Expands l s t -> Expands l' s t.
Proof.
  intros H. induction 1 as [|k v r t Hin He IH|c r t Hno He IH]; [constructor|apply Exp_ref; [apply H, Hin|exact IH]|].
  apply Exp_lit; [|exact IH]. intros k v q Hin. apply (Hno k v q), H, Hin.
Qed.
Lemma expand_spec ord ctx s : any_order ord -> tame ctx -> NoDup (map fst ctx) -> flat s -> calm ctx s ->
  Expands ctx s (expand ord ctx s).
Proof.
  intros Ho Ht Hn Hf Hc. specialize (Ho ctx). apply (Expands_incl (ord ctx)).
  - intros b. split; apply Permutation_in; [exact Ho|apply Permutation_sym, Ho].
  - apply expand_expands with (ctx := ctx); try assumption.
    + intros b. apply Permutation_in, Ho.
    + eapply Permutation_NoDup; [apply Permutation_map, Permutation_sym, Ho|exact Hn].
Qed.
Lemma Expands_unique ctx s t u : (forall k v, In (k, v) ctx -> ~ In "}" k) -> NoDup (map fst ctx) ->
  Expands ctx s t -> Expands ctx s u -> t = u.
Proof.
  intros Hk Hn H. revert u. induction H as [|k v r t Hin He IH|c r t Hno He IH]; intros u Hu.
  - inversion Hu; reflexivity.
  - inversion Hu as [|k' v' r' t' Hin' He' E|c' r' t' Hno' He']; subst.
    + apply ref_unique in E as [-> ->]; [|eauto|eauto]. rewrite (IH _ He').
      assert (E : Some v = Some v') by (rewrite <- (aget_nodup k v ctx Hn Hin); apply aget_nodup; assumption). injection E as ->. reflexivity.
    + destruct (Hno' k v r Hin). reflexivity.
  - inversion Hu as [|k' v' r' t' Hin' He' E|c' r' t' Hno' He']; subst.
    + destruct (Hno k' v' r' Hin'). reflexivity.
    + rewrite (IH _ He'). reflexivity.
Qed.
Lemma expand_order ord1 ord2 ctx s : any_order ord1 -> any_order ord2 -> tame ctx -> NoDup (map fst ctx) -> flat s -> calm ctx s ->
  expand ord1 ctx s = expand ord2 ctx s.
Proof.
  intros H1 H2 Ht Hn Hf Hc. eapply Expands_unique; [|exact Hn|apply expand_spec; assumption|apply expand_spec; assumption].
  intros k v Hin. destruct (Ht k v Hin) as (_ & [_ H] & _). exact H.
Qed.

(** ** Whole packages *)
Lemma expand_action_ext f g a : (forall s, In s (expandable a) -> f s = g s) -> expand_action f a = expand_action g a.
Proof.
  destruct a; cbn [expandable expand_action]; intros H; try reflexivity; try (rewrite H by (left; reflexivity); reflexivity).
  destruct msg; cbn [opt]; [rewrite H by (left; reflexivity); reflexivity|reflexivity].
Qed.
Lemma tame_put ctx k v : tame ctx -> k <> [] -> braceless k -> harmless v -> tame (aput k v ctx).
Proof.
  intros H Hk Hb [Hv Hd] k' v' Hin. induction ctx as [|[x y] ctx IH]; cbn [aput] in Hin.
  - destruct Hin as [[= <- <-]|[]]. auto.
  - assert (Ht : tame ctx) by (intros a b Hab; apply H; right; exact Hab). destruct (text_eqb k x).
    + destruct Hin as [[= <- <-]|Hin]; [auto|]. apply H. right. exact Hin.
    + destruct Hin as [[= <- <-]|Hin]; [apply H; left; reflexivity|]. apply IH; assumption.
Qed.
Lemma split_harmless s : harmless s -> forall p, In p (split_on "." s) -> harmless p.
Proof.
  intros [[H1 H2] H3] p Hp. assert (K : forall c, In c p -> In c s).
  { clear -Hp. revert p Hp. induction s as [|x s IH]; intros p Hp c Hc; cbn [split_on] in Hp.
    - destruct Hp as [<-|[]]. exact Hc.
    - destruct (Ascii.eqb x ".") .
      + destruct Hp as [<-|Hp]; [destruct Hc|]. right. eapply IH; eassumption.
      + destruct (split_on "." s) as [|q qs] eqn:E; [destruct (split_on_nonnil _ _ E)|]. destruct Hp as [<-|Hp].
        * destruct Hc as [->|Hc]; [left; reflexivity|]. right. apply (IH q); [left; reflexivity|exact Hc].
        * right. apply (IH p); [right; exact Hp|exact Hc]. }
  repeat split; intros Hc; apply K in Hc; contradiction.
Qed.
Lemma tame_components ns cs ctx : (forall n, In n ns -> braceless n) -> (forall c, In c cs -> harmless c) -> tame ctx ->
  tame (put_components ns cs ctx).
Proof.
  revert cs ctx. induction ns as [|n ns IH]; intros cs ctx Hn Hc Ht; [exact Ht|]. destruct cs as [|c cs]; [exact Ht|]. cbn [put_components].
  apply IH; [intros x Hx; apply Hn; right; exact Hx|intros x Hx; apply Hc; right; exact Hx|].
  apply tame_put; [exact Ht|discriminate| |apply Hc; left; reflexivity].
  destruct (Hn n (or_introl eq_refl)) as [H1 H2].
  split; intros H; apply in_app_iff in H as [H|H]; try contradiction; cbn in H; repeat (destruct H as [H|H]; [discriminate|]); exact H.
Qed.
Lemma text_braceless s : forallb (fun c => negb (Ascii.eqb c "{" || Ascii.eqb c "}")) s = true -> braceless s.
Proof. intros H. rewrite forallb_forall in H. split; intros K; apply H in K; discriminate. Qed.
Lemma package_ctx_tame ctx name root version : tame ctx -> harmless name ->
  (forall r, root = Some r -> harmless r) -> (forall v, version = Some v -> harmless v) -> tame (package_ctx ctx name root version).
Proof.
  intros Ht Hn Hr Hv. unfold package_ctx.
  assert (H1 : tame (match root with Some r => aput (T "this.root") r (aput (T "root") r ctx) | None => ctx end)).
  { destruct root as [r|]; [|exact Ht]. specialize (Hr r eq_refl). repeat apply tame_put; try assumption; try discriminate; apply text_braceless; reflexivity. }
  apply tame_put; [|discriminate|apply text_braceless; reflexivity|exact Hn].
  apply tame_put; [|discriminate|apply text_braceless; reflexivity|exact Hn].
  destruct version as [v|]; [|exact H1]. specialize (Hv v eq_refl). apply tame_components.
  - intros n Hin. repeat (destruct Hin as [<-|Hin]; [apply text_braceless; reflexivity|]). destruct Hin.
  - apply split_harmless, Hv.
  - repeat apply tame_put; try assumption; try discriminate; apply text_braceless; reflexivity.
Qed.
Lemma put_components_nodup ns cs ctx : NoDup (akeys ctx) -> NoDup (akeys (put_components ns cs ctx)).
Proof.
  revert cs ctx. induction ns as [|n ns IH]; intros cs ctx H; [exact H|]. destruct cs as [|c cs]; [exact H|]. cbn [put_components]. apply IH, nodup_put, H.
Qed.
Lemma package_ctx_nodup ctx name root version : NoDup (map fst ctx) -> NoDup (map fst (package_ctx ctx name root version)).
Proof.
  intros H. unfold package_ctx. apply nodup_put, nodup_put.
  assert (H1 : NoDup (akeys (match root with Some r => aput (T "this.root") r (aput (T "root") r ctx) | None => ctx end))).
  { destruct root; [apply nodup_put, nodup_put|]; exact H. }
  destruct version as [v|]; [|exact H1]. apply put_components_nodup, nodup_put, nodup_put, H1.
Qed.
Lemma execute_order win ord1 ord2 x commands name root version :
  any_order ord1 -> any_order ord2 -> NoDup (map fst (x_ctx x)) -> tame (x_ctx x) -> harmless name ->
  (forall r, root = Some r -> harmless r) -> (forall v, version = Some v -> harmless v) ->
  (forall l a s, parse_commands commands = Some l -> In a l -> In s (expandable a) ->
     flat s /\ calm (package_ctx (x_ctx x) name root version) s) ->
  execute win ord1 x commands name root version = execute win ord2 x commands name root version.
Proof.
  intros H1 H2 Hd Ht Hn Hr Hv Ha. unfold execute. destruct (parse_commands commands) as [l|]; [|reflexivity]. cbv zeta.
  assert (E : map (fun a => mkRaction (expand_action (expand ord1 (package_ctx (x_ctx x) name root version)) a) (Some name)) l =
              map (fun a => mkRaction (expand_action (expand ord2 (package_ctx (x_ctx x) name root version)) a) (Some name)) l).
  { apply map_ext_in. intros a Hin. f_equal. apply expand_action_ext. intros s Hs. destruct (Ha l a s eq_refl Hin Hs) as [Hf Hc].
    apply expand_order; try assumption; [apply package_ctx_tame; assumption|apply package_ctx_nodup, Hd]. }
  rewrite E. reflexivity.
Qed.
