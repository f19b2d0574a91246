(** Proofs about generated environments: differences, path lists, order of effects. *)
From Verif Require Import Base Base_lemmas Text_lemmas Maps Sorting Order_spec Version_model Package_model Requirement_model.
From Verif Require Import Rex_model Rex_spec Rex_proofs Rex_parse Env_model Env_spec.
Open Scope char_scope.

(** ** Differences *)
Lemma diff_added base env x v : NoDup (akeys env) ->
  (In (x, v) (f_added (get_env_diff base env)) <-> aget x base = None /\ aget x env = Some v).
Proof.
  intros N. cbn [get_env_diff f_added]. rewrite in_flat_map. split.
  - intros [[k u] [Hi H]]. cbn [fst] in H. destruct (aget k base) eqn:E; [destruct H|]. destruct H as [[= <- <-]|[]].
    split; [exact E|]. apply aget_nodup; assumption.
  - intros [Hb He]. exists (x, v). split; [apply aget_in, He|]. cbn [fst]. rewrite Hb. left. reflexivity.
Qed.
Lemma diff_modified base env x o v : NoDup (akeys env) ->
  (In (x, (o, v)) (f_modified (get_env_diff base env)) <-> aget x base = Some o /\ aget x env = Some v /\ o <> v).
Proof.
  intros N. cbn [get_env_diff f_modified]. rewrite in_flat_map. split.
  - intros [[k u] [Hi H]]. cbn [fst snd] in H. destruct (aget k base) as [b|] eqn:E; [|destruct H].
    destruct (text_eqb_spec b u) as [|Hne]; [destruct H|]. destruct H as [[= <- <- <-]|[]].
    split; [exact E|]. split; [apply aget_nodup; assumption|exact Hne].
  - intros (Hb & He & Hn). exists (x, v). split; [apply aget_in, He|]. cbn [fst snd]. rewrite Hb.
    destruct (text_eqb_spec o v); [contradiction|]. left. reflexivity.
Qed.
Lemma diff_removed base env x :
  In x (f_removed (get_env_diff base env)) <-> aget x base <> None /\ aget x env = None.
Proof.
  cbn [get_env_diff f_removed]. rewrite filter_In, negb_true_iff. split.
  - intros [H1 H2]. split; [intros E; apply aget_none in E; contradiction|]. unfold ahas in H2. destruct (aget x env); [discriminate|reflexivity].
  - intros [H1 H2]. split; [destruct (aget x base) eqn:E; [apply aget_some; eauto|congruence]|]. unfold ahas. rewrite H2. reflexivity.
Qed.
Lemma diff_added_key base env x : NoDup (akeys env) ->
  (In x (map fst (f_added (get_env_diff base env))) <-> aget x base = None /\ aget x env <> None).
Proof.
  intros N. rewrite in_map_iff. split.
  - intros [[k v] [<- H]]. apply diff_added in H as [H1 H2]; [|exact N]. cbn [fst]. split; [exact H1|congruence].
  - intros [H1 H2]. destruct (aget x env) as [v|] eqn:E; [|congruence]. exists (x, v). split; [reflexivity|]. apply diff_added; auto.
Qed.
Lemma diff_modified_key base env x : NoDup (akeys env) ->
  (In x (map fst (f_modified (get_env_diff base env))) <-> aget x base <> None /\ aget x env <> None /\ aget x base <> aget x env).
Proof.
  intros N. rewrite in_map_iff. split.
  - intros [[k [o v]] [<- H]]. apply diff_modified in H as (H1 & H2 & H3); [|exact N]. cbn [fst]. rewrite H1, H2. repeat split; congruence.
  - intros (H1 & H2 & H3). destruct (aget x env) as [v|] eqn:E; [|congruence]. destruct (aget x base) as [o|] eqn:E'; [|congruence].
    exists (x, (o, v)). split; [reflexivity|]. apply diff_modified; auto. repeat split; auto. congruence.
Qed.
Lemma diff_patched base env x : NoDup (akeys env) -> patched (get_env_diff base env) (aget x base) x (aget x env).
Proof.
  intros N. repeat split.
  - intros H. apply diff_removed in H as [_ H]. exact H.
  - apply diff_modified in H; [|exact N]. tauto.
  - apply diff_modified in H; [|exact N]. tauto.
  - apply diff_added in H; [|exact N]. tauto.
  - apply diff_added in H; [|exact N]. tauto.
  - intros H1 H2 H3. rewrite diff_removed in H1. rewrite diff_modified_key in H2 by exact N. rewrite diff_added_key in H3 by exact N.
    destruct (aget x env) as [v|], (aget x base) as [o|]; try reflexivity.
    + destruct (text_eq_dec o v) as [->|]; [reflexivity|]. exfalso. apply H2. repeat split; congruence.
    + exfalso. apply H3. split; congruence.
    + exfalso. apply H1. split; congruence.
Qed.
Lemma patched_unique base env x : NoDup (akeys env) -> forall new, patched (get_env_diff base env) (aget x base) x new -> new = aget x env.
Proof.
  intros N new (H1 & H2 & H3 & H4). destruct (aget x env) as [v|] eqn:E, (aget x base) as [o|] eqn:E'.
  - destruct (text_eq_dec o v) as [->|Hn].
    + apply H4; [rewrite diff_removed; intros [_ H]; congruence|rewrite diff_modified_key by exact N; intros (_ & _ & H); congruence|
        rewrite diff_added_key by exact N; intros [H _]; congruence].
    + apply (H2 o v). apply diff_modified; auto.
  - apply (H3 v). apply diff_added; auto.
  - apply H1. apply diff_removed. split; congruence.
  - apply H4; [rewrite diff_removed; intros [H _]; congruence|rewrite diff_modified_key by exact N; intros (H & _ & _); congruence|
      rewrite diff_added_key by exact N; intros [_ H]; congruence].
Qed.
Lemma NoDup_flat_keys {B} (f : text * text -> list (text * B)) m :
  (forall kv, f kv = [] \/ exists b, f kv = [(fst kv, b)]) -> NoDup (akeys m) -> NoDup (map fst (flat_map f m)).
Proof.
  intros Hf. induction m as [|kv m IH]; intros N; [constructor|]. cbn in N. inversion N as [|? ? Hn N']; subst.
  cbn [flat_map]. destruct (Hf kv) as [->|[b ->]]; [apply IH, N'|]. cbn. constructor; [|apply IH, N'].
  intros H. apply Hn. apply in_map_iff in H as [[k c] [E H]]. cbn in E. subst k. apply in_flat_map in H as [kv' [Hi H]].
  destruct (Hf kv') as [E|[b' E]]; rewrite E in H; [destruct H|]. destruct H as [[= E' _]|[]]. rewrite <- E'. apply in_map, Hi.
Qed.
Lemma diff_nodup base env : NoDup (akeys base) -> NoDup (akeys env) ->
  NoDup (map fst (f_added (get_env_diff base env)) ++ map fst (f_modified (get_env_diff base env)) ++ f_removed (get_env_diff base env)).
Proof.
  intros Nb Ne.
  assert (NA : NoDup (map fst (f_added (get_env_diff base env)))).
  { apply NoDup_flat_keys; [|exact Ne]. intros [k v]. cbn [fst]. destruct (aget k base); [left; reflexivity|right; exists v; reflexivity]. }
  assert (NM : NoDup (map fst (f_modified (get_env_diff base env)))).
  { apply NoDup_flat_keys; [|exact Ne]. intros [k v]. cbn [fst snd]. destruct (aget k base) as [b|]; [|left; reflexivity].
    destruct (text_eqb b v); [left; reflexivity|right; eexists; reflexivity]. }
  assert (NR : NoDup (f_removed (get_env_diff base env))) by (apply NoDup_filter, Nb).
  assert (App : forall A (l l' : list A), NoDup l -> NoDup l' -> (forall x, In x l -> ~ In x l') -> NoDup (l ++ l')).
  { intros A l l' H1 H2 H. induction H1 as [|a l Hn H1 IH]; [exact H2|]. cbn. constructor.
    - rewrite in_app_iff. intros [K|K]; [contradiction|exact (H a (or_introl eq_refl) K)].
    - apply IH. intros x Hx. apply H. right. exact Hx. }
  apply App; [exact NA| |].
  - apply App; [exact NM|exact NR|]. intros x Hx Hy. apply diff_modified_key in Hx; [|exact Ne]. apply diff_removed in Hy. tauto.
  - intros x Hx Hy. apply diff_added_key in Hx; [|exact Ne]. apply in_app_iff in Hy as [Hy|Hy];
      [apply diff_modified_key in Hy; [|exact Ne]|apply diff_removed in Hy]; tauto.
Qed.
Lemma diff_count base env : NoDup (akeys base) -> NoDup (akeys env) ->
  exists l, NoDup l /\ (forall x, In x l <-> aget x base <> aget x env) /\ change_count (get_env_diff base env) = length l.
Proof.
  intros Nb Ne. eexists. split; [apply (diff_nodup base env Nb Ne)|]. split.
  - intros x. rewrite !in_app_iff, diff_added_key, diff_modified_key, diff_removed by exact Ne.
    destruct (aget x base) as [o|], (aget x env) as [v|]; intuition congruence.
  - unfold change_count. rewrite !app_length, !map_length. lia.
Qed.
Lemma diff_empty base env : NoDup (akeys base) -> NoDup (akeys env) ->
  (diff_is_empty (get_env_diff base env) = true <-> same_map base env).
Proof.
  intros Nb Ne. destruct (diff_count base env Nb Ne) as (l & _ & H & E).
  assert (Z : diff_is_empty (get_env_diff base env) = true <-> change_count (get_env_diff base env) = 0).
  { unfold diff_is_empty, change_count. destruct (f_added _), (f_modified _), (f_removed _); cbn; split; intros K; (reflexivity || discriminate K || lia). }
  rewrite Z, E. split.
  - intros K x. destruct l; [|discriminate]. destruct (aget x base) as [o|] eqn:Eb, (aget x env) as [v|] eqn:Ee; try reflexivity.
    + destruct (text_eq_dec o v) as [->|Hn]; [reflexivity|]. exfalso. apply (H x). congruence.
    + exfalso. apply (H x). congruence.
    + exfalso. apply (H x). congruence.
  - intros K. destruct l as [|x l]; [reflexivity|]. exfalso. apply (proj1 (H x) (or_introl eq_refl)), K.
Qed.

(** ** Path lists *)
Lemma mem_text_in x l : mem_text x l = true <-> In x l.
Proof.
  unfold mem_text. rewrite existsb_exists. split.
  - intros [y [H E]]. destruct (text_eqb_spec x y); [subst; exact H|discriminate].
  - intros H. exists x. split; [exact H|apply text_eqb_refl].
Qed.
Lemma identity_fold win e : identity win e = fold_entry win e.
Proof.
  unfold identity, fold_entry. destruct win; [|reflexivity]. induction e as [|c e IH]; [reflexivity|].
  unfold replace_char in *. cbn [flat_map map]. destruct (Ascii.eqb c "/").
  - etransitivity; [|apply f_equal, IH]. reflexivity.
  - cbn [app map]. f_equal. exact IH.
Qed.
(** [unseen] depends on the set of what has been seen only *)
Lemma unseen_ext win l : forall s s', (forall e, In e l -> (In (identity win e) s <-> In (identity win e) s')) -> unseen win s l = unseen win s' l.
Proof.
  induction l as [|e l IH]; intros s s' H; [reflexivity|]. cbn [unseen].
  assert (E : mem_text (identity win e) s = mem_text (identity win e) s').
  { apply Bool.eq_true_iff_eq. rewrite !mem_text_in. apply H. left. reflexivity. }
  rewrite E. destruct (mem_text (identity win e) s').
  - apply IH. intros x Hx. apply H. right. exact Hx.
  - f_equal. apply IH. intros x Hx. cbn [In]. rewrite (H x (or_intror Hx)). reflexivity.
Qed.
Lemma unseen_filter2 win s l : forall t, unseen win (t ++ s) l = unseen win t (filter (fun x => negb (mem_text (identity win x) s)) l).
Proof.
  induction l as [|e l IH]; intros t; [reflexivity|]. cbn [unseen filter]. destruct (mem_text (identity win e) s) eqn:E; cbn [negb].
  - assert (M : mem_text (identity win e) (t ++ s) = true) by (apply mem_text_in, in_app_iff; right; apply mem_text_in, E). rewrite M. apply IH.
  - cbn [unseen]. assert (M : mem_text (identity win e) (t ++ s) = mem_text (identity win e) t).
    { apply Bool.eq_true_iff_eq. rewrite !mem_text_in, in_app_iff, <- (mem_text_in _ s), E. intuition discriminate. }
    rewrite M. destruct (mem_text (identity win e) t); [apply IH|]. f_equal. apply (IH (identity win e :: t)).
Qed.
Lemma unseen_filter win s l : unseen win s l = unseen win [] (filter (fun x => negb (mem_text (identity win x) s)) l).
Proof. apply (unseen_filter2 win s l []). Qed.
Lemma unseen_firsts win : forall n l, length l <= n -> firsts (fold_entry win) l (unseen win [] l).
Proof.
  induction n as [|n IH]; intros [|e l] H; [constructor|cbn in H; lia|constructor|].
  change (unseen win [] (e :: l)) with (e :: unseen win [identity win e] l). constructor. rewrite unseen_filter.
  assert (E : filter (fun x => negb (mem_text (identity win x) [identity win e])) l = filter (fun x => negb (text_eqb (fold_entry win x) (fold_entry win e))) l).
  { apply filter_ext. intros x. unfold mem_text. cbn [existsb]. rewrite orb_false_r, !identity_fold. reflexivity. }
  rewrite E. apply IH. cbn in H.
  assert (L : length (filter (fun x => negb (text_eqb (fold_entry win x) (fold_entry win e))) l) <= length l).
  { clear. induction l as [|x l IHl]; [apply le_n|]. cbn [filter]. destruct (negb _); cbn [length]; lia. }
  lia.
Qed.
Lemma unseen_spec win l : firsts (fold_entry win) l (unseen win [] l).
Proof. apply (unseen_firsts win (length l)), le_n. Qed.
Lemma firsts_unique ident l k k' : firsts ident l k -> firsts ident l k' -> k = k'.
Proof.
  intros H. revert k'. induction H as [|e l k H IH]; intros k' H'; inversion H'; subst; [reflexivity|]. f_equal. apply IH. assumption.
Qed.
(** what [firsts] means for entries and lookups *)
Lemma firsts_in ident l k : firsts ident l k -> forall e, In e k -> In e l.
Proof. induction 1 as [|e l k H IH]; intros x Hx; [exact Hx|]. destruct Hx as [->|Hx]; [left; reflexivity|]. right. apply IH in Hx. apply filter_In in Hx. tauto. Qed.
Lemma firsts_all ident l k : firsts ident l k -> forall e, In e l -> In (ident e) (map ident k).
Proof.
  induction 1 as [|e l k H IH]; intros x Hx; [exact Hx|]. destruct Hx as [->|Hx]; [left; reflexivity|]. cbn [map].
  destruct (text_eqb_spec (ident x) (ident e)) as [E|E]; [left; congruence|]. right. apply IH. apply filter_In. split; [exact Hx|].
  destruct (text_eqb_spec (ident x) (ident e)); [contradiction|reflexivity].
Qed.
Lemma firsts_nodup ident l k : firsts ident l k -> NoDup (map ident k).
Proof.
  induction 1 as [|e l k H IH]; [constructor|]. cbn. constructor; [|exact IH]. intros K. apply in_map_iff in K as [x [E Hx]].
  apply (firsts_in _ _ _ H) in Hx. apply filter_In in Hx as [_ Hx]. rewrite E, text_eqb_refl in Hx. discriminate.
Qed.
Lemma firsts_find ident l k (P : text -> bool) : (forall a b, ident a = ident b -> P a = P b) -> firsts ident l k -> find P k = find P l.
Proof.
  intros HP. induction 1 as [|e l k H IH]; [reflexivity|]. cbn [find]. destruct (P e) eqn:E; [reflexivity|]. rewrite IH. clear H IH.
  induction l as [|x l IHl]; [reflexivity|]. cbn [filter find]. destruct (text_eqb_spec (ident x) (ident e)) as [Ex|Ex]; cbn [negb].
  - rewrite (HP x e Ex), E. exact IHl.
  - cbn [find]. destruct (P x); [reflexivity|exact IHl].
Qed.
Lemma filter_id {A} (f : A -> bool) l : (forall x, In x l -> f x = true) -> filter f l = l.
Proof. induction l as [|x l IH]; intros H; [reflexivity|]. cbn. rewrite (H x (or_introl eq_refl)). f_equal. apply IH. intros y Hy. apply H. right. exact Hy. Qed.
Lemma firsts_fix ident k : NoDup (map ident k) -> firsts ident k k.
Proof.
  induction k as [|e k IH]; intros N; [constructor|]. cbn in N. inversion N as [|? ? Hn N']; subst. constructor.
  rewrite filter_id; [apply IH, N'|]. intros x Hx. destruct (text_eqb_spec (ident x) (ident e)) as [E|E]; [|reflexivity].
  exfalso. apply Hn. rewrite <- E. apply in_map, Hx.
Qed.
Lemma path_sep_char win : path_sep win = [sep_char win]. Proof. destruct win; reflexivity. Qed.
Lemma normal_split win v : split_on (sep_char win) (normal_path win v) = unseen win [] (split_on (sep_char win) v).
Proof.
  unfold normal_path. rewrite path_sep_char. apply split_join.
  - destruct (split_on_cons (sep_char win) v) as [p [ps ->]]. cbn [unseen]. discriminate.
  - apply Forall_forall. intros e He. apply (firsts_in _ _ _ (unseen_spec win _)) in He.
    exact (proj1 (Forall_forall _ _) (split_on_pieces (sep_char win) v) e He).
Qed.
Lemma normal_idem win v : normal_path win (normal_path win v) = normal_path win v.
Proof.
  unfold normal_path at 1. rewrite normal_split. unfold normal_path. f_equal.
  apply (firsts_unique (fold_entry win) (unseen win [] (split_on (sep_char win) v))); [apply unseen_spec|].
  apply firsts_fix, (firsts_nodup _ _ _ (unseen_spec win _)).
Qed.
Lemma same_nocase_path k : same_nocase k (T "PATH") = true <-> pathlike k.
Proof.
  unfold same_nocase, pathlike. change (map to_lower (T "PATH")) with (T "path"). destruct (text_eqb_spec (map to_lower k) (T "path")); split; intros; auto; discriminate.
Qed.
Lemma path_key_one w m k : any_order (w_keys w) -> (forall x, In x (akeys m) -> pathlike x -> x = k) ->
  (In k (akeys m) -> pathlike k) -> In k (akeys m) \/ k = environment_key (w_win w) (T "PATH") -> path_key w m = k.
Proof.
  intros Ho Hu Hk Hp. unfold path_key. destruct (find _ (w_keys w m)) as [[x v]|] eqn:E.
  - apply find_some in E as [Hi E]. cbn [fst] in *. apply Hu; [|apply same_nocase_path, E].
    apply (Permutation_in _ (Ho m)) in Hi. exact (in_map fst _ _ Hi).
  - destruct Hp as [Hp|Hp]; [|congruence]. exfalso. apply in_map_iff in Hp as [[x v] [Ek Hi]]. cbn in Ek. subst x.
    assert (P : same_nocase k (T "PATH") = true) by (apply same_nocase_path, Hk; exact (in_map fst _ _ Hi)).
    apply (Permutation_in _ (Permutation_sym (Ho m))) in Hi. apply (find_none _ _ E) in Hi. cbn [fst] in Hi. congruence.
Qed.
