(** Lemmas about the model of tests, commands and completion. *)
From Verif Require Import Base Base_lemmas Text_lemmas Maps Sorting Files_model Query_model Try_model Try_spec.
Open Scope string_scope. Open Scope list_scope.

(** ** Patterns *)
Lemma from_spec (f : text -> bool) : forall t,
  (fix from (t : text) : bool := f t || match t with d :: u => dotted d && from u | [] => false end) t = true <-> exists u v, t = u ++ v /\ forallb dotted u = true /\ f v = true.
Proof.
  induction t as [|d t IH].
  - rewrite orb_false_r. split; [intros H; exists [], []; auto|]. intros (u & v & E & _ & F). symmetry in E. apply app_eq_nil in E. destruct E as [-> ->]. exact F.
  - rewrite orb_true_iff, andb_true_iff, IH. split.
    + intros [H|[D (u & v & -> & U & F)]]; [exists [], (d :: t); auto|]. exists (d :: u), v. cbn. rewrite D, U. auto.
    + intros (u & v & E & U & F). destruct u as [|x u]; cbn in E; [subst v; now left|]. injection E as <- ->. cbn in U. apply andb_true_iff in U. destruct U as [D U]. right. split; [exact D|]. now exists u, v.
Qed.
Lemma whole_run r t : whole (AnyRun :: r) t = true <-> exists u v, t = u ++ v /\ forallb dotted u = true /\ whole r v = true.
Proof. exact (from_spec (whole r) t). Qed.
Lemma begins_run r t : begins (AnyRun :: r) t = true <-> exists u v, t = u ++ v /\ forallb dotted u = true /\ begins r v = true.
Proof. exact (from_spec (begins r) t). Qed.
Lemma begins_spec ps : forall t, begins ps t = true <-> exists v w, t = v ++ w /\ whole ps v = true.
Proof.
  induction ps as [|[c| |] r IH]; intros t.
  - cbn. split; [intros _; exists [], t; auto|auto].
  - destruct t as [|d u]; cbn; [split; [discriminate|]|].
    + intros (v & w & E & F). symmetry in E. apply app_eq_nil in E. destruct E as [-> _]. discriminate.
    + rewrite andb_true_iff, IH. split.
      * intros [D (v & w & -> & F)]. exists (d :: v), w. now rewrite D, F.
      * intros (v & w & E & F). destruct v as [|x v]; [discriminate|]. cbn in E. injection E as <- ->. apply andb_true_iff in F. destruct F as [D F]. split; [exact D|]. now exists v, w.
  - destruct t as [|d u]; cbn; [split; [discriminate|]|].
    + intros (v & w & E & F). symmetry in E. apply app_eq_nil in E. destruct E as [-> _]. discriminate.
    + rewrite andb_true_iff, IH. split.
      * intros [D (v & w & -> & F)]. exists (d :: v), w. now rewrite D, F.
      * intros (v & w & E & F). destruct v as [|x v]; [discriminate|]. cbn in E. injection E as <- ->. apply andb_true_iff in F. destruct F as [D F]. split; [exact D|]. now exists v, w.
  - rewrite begins_run. split.
    + intros (u & v & -> & U & F). apply IH in F. destruct F as (a & w & -> & F). exists (u ++ a), w. split; [now rewrite app_assoc|]. apply whole_run. now exists u, a.
    + intros (v & w & -> & F). apply whole_run in F. destruct F as (u & a & -> & U & F). exists u, (a ++ w). split; [now rewrite app_assoc|]. split; [exact U|]. apply IH. now exists a, w.
Qed.
Lemma within_spec ps : forall t, within ps t = true <-> exists u v w, t = u ++ v ++ w /\ whole ps v = true.
Proof.
  induction t as [|c t IH]; cbn [within]; rewrite orb_true_iff, begins_spec.
  - split.
    + intros [(v & w & E & F)|H]; [exists [], v, w; auto|discriminate].
    + intros (u & v & w & E & F). symmetry in E. apply app_eq_nil in E. destruct E as [-> E]. left. now exists v, w.
  - rewrite IH. split.
    + intros [(v & w & E & F)|(u & v & w & -> & F)]; [exists [], v, w; auto|exists (c :: u), v, w; auto].
    + intros (u & v & w & E & F). destruct u as [|x u]; [left; now exists v, w|]. cbn in E. injection E as <- ->. right. now exists u, v, w.
Qed.
Lemma one_line_dotted t : one_line t -> forallb dotted t = true.
Proof. intros H. apply forallb_forall. intros c I. unfold dotted. destruct (Ascii.eqb_spec c "010"%char) as [->|]; [contradiction|reflexivity]. Qed.
Lemma plain_tail c p : plain_pattern (c :: p) -> plain_pattern p.
Proof. intros H d I. apply H. now right. Qed.
Lemma whole_glob p : plain_pattern p -> forall t, one_line t -> (whole (map piece_of p) t = true <-> Glob p t).
Proof.
  induction p as [|c p IH]; intros PL t OL.
  - cbn. destruct t; split; intros H; try discriminate; try constructor; inversion H.
  - specialize (IH (plain_tail _ _ PL)). cbn [map]. unfold piece_of at 1. destruct (Ascii.eqb_spec c "*"%char) as [->|NE].
    + rewrite whole_run. split.
      * intros (u & v & -> & U & F). constructor. apply IH; [|exact F]. intros I. apply OL. apply in_or_app. now right.
      * intros H. inversion H as [|? u t' G|]; subst; [|contradiction]. exists u, t'. split; [reflexivity|]. split.
        -- apply one_line_dotted. intros I. apply OL. apply in_or_app. now left.
        -- apply IH; [|exact G]. intros I. apply OL. apply in_or_app. now right.
    + destruct (Ascii.eqb_spec c "."%char) as [->|ND]; [exfalso; apply (PL "."%char); cbn; tauto|]. cbn. destruct t as [|d u].
      * split; [discriminate|]. intros H. inversion H; congruence.
      * rewrite andb_true_iff. split.
        -- intros [E F]. apply Ascii.eqb_eq in E. subst d. constructor; [exact NE|]. apply IH; [|exact F]. intros I. apply OL. now right.
        -- intros H. inversion H as [|? ? ? G E1 E2|? ? ? NE' G]; subst; [congruence|]. split; [apply Ascii.eqb_refl|]. apply IH; [|exact G]. intros I. apply OL. now right.
Qed.
Lemma glob_self p : ~ In "*"%char p -> Glob p p.
Proof. induction p as [|c p IH]; intros H; constructor; [intros ->; apply H; now left|]. apply IH. intros I. apply H. now right. Qed.
Lemma glob_no_star p : ~ In "*"%char p -> forall t, Glob p t -> t = p.
Proof. induction p as [|c p IH]; intros H t G; inversion G; subst; [reflexivity|exfalso; apply H; now left|]. f_equal. apply IH; [|assumption]. intros I. apply H. now right. Qed.
Lemma plain_meta p : plain_pattern p -> existsb is_meta p = false.
Proof.
  intros H. destruct (existsb is_meta p) eqn:E; [|reflexivity]. apply existsb_exists in E. destruct E as (c & I & M). exfalso. apply (H c I).
  unfold is_meta in M. apply existsb_exists in M. destruct M as (d & J & E). apply Ascii.eqb_eq in E. subst d. change (T "\+?()|[]{}^$.") with (T "\+?()|[]{}^$" ++ T "."). apply in_or_app. now left.
Qed.
Lemma has_char_in c s : has_char c s = true <-> In c s.
Proof. unfold has_char. rewrite existsb_exists. split; [intros (d & I & E); apply Ascii.eqb_eq in E; now subst|intros I; exists c; split; [exact I|apply Ascii.eqb_refl]]. Qed.
Lemma has_char_not c s : has_char c s = false <-> ~ In c s.
Proof. rewrite <- has_char_in. destruct (has_char c s); split; congruence || tauto. Qed.

(** ** Choosing names *)
Lemma firsts_after_ext l : forall s1 s2, (forall x, In x s1 <-> In x s2) -> firsts_after s1 l = firsts_after s2 l.
Proof.
  induction l as [|x l IH]; intros s1 s2 H; [reflexivity|]. cbn.
  assert (E : existsb (text_eqb x) s1 = existsb (text_eqb x) s2).
  { apply eq_true_iff_eq. rewrite !existsb_exists. split; intros (y & I & E); exists y; (split; [apply H; exact I|exact E]). }
  rewrite E. destruct (existsb (text_eqb x) s2); [now apply IH|]. f_equal. apply IH. intros y. cbn. now rewrite H.
Qed.
Lemma add_names_fold l : forall acc, fold_left add_name l acc = acc ++ firsts_after acc l.
Proof.
  induction l as [|x l IH]; intros acc; cbn; [now rewrite app_nil_r|]. unfold add_name at 2, mem_text. destruct (existsb (text_eqb x) acc) eqn:E; [apply IH|].
  rewrite IH, <- app_assoc. cbn. f_equal. f_equal. apply firsts_after_ext. intros y. rewrite in_app_iff. cbn. tauto.
Qed.
Lemma firsts_after_app l1 l2 : forall s, firsts_after s (l1 ++ l2) = firsts_after s l1 ++ firsts_after (s ++ firsts_after s l1) l2.
Proof.
  induction l1 as [|x l IH]; intros s; cbn; [now rewrite app_nil_r|]. destruct (existsb (text_eqb x) s); [apply IH|]. cbn. f_equal. rewrite IH. f_equal. apply firsts_after_ext. intros y. cbn. rewrite !in_app_iff. cbn. tauto.
Qed.
Lemma firsts_after_in l x : forall s, In x (firsts_after s l) <-> In x l /\ ~ In x s.
Proof.
  induction l as [|y l IH]; intros s; cbn; [tauto|]. destruct (existsb (text_eqb y) s) eqn:E.
  - rewrite IH. apply existsb_exists in E. destruct E as (z & I & E). apply text_eqb_eq in E. subst z. split; [tauto|]. intros [[->|H] N]; [contradiction|tauto].
  - cbn. rewrite IH. cbn. assert (~ In y s). { intros I. assert (existsb (text_eqb y) s = true) by (apply existsb_exists; exists y; split; [exact I|apply text_eqb_refl]). congruence. }
    split; [intros [->|[H1 H2]]; tauto|]. intros [[->|H1] H2]; [now left|]. destruct (list_eq_dec Ascii.ascii_dec y x); [now left|right; tauto].
Qed.
Lemma firsts_after_nodup l : forall s, NoDup (firsts_after s l).
Proof. induction l as [|x l IH]; intros s; cbn; [constructor|]. destruct (existsb (text_eqb x) s); [apply IH|]. constructor; [|apply IH]. rewrite firsts_after_in. cbn. tauto. Qed.
Lemma filter_one p (l : list text) : NoDup l -> filter (text_eqb p) l = if mem_text p l then [p] else [].
Proof.
  intros ND. unfold mem_text. induction ND as [|x l NI ND IH]; cbn; [reflexivity|]. destruct (text_eqb p x) eqn:E; cbn.
  - apply text_eqb_eq in E. subst x. rewrite IH. destruct (existsb (text_eqb p) l) eqn:M; [|reflexivity]. exfalso. apply NI. apply existsb_exists in M. destruct M as (y & I & E). apply text_eqb_eq in E. now subst.
  - exact IH.
Qed.
(** what a request selects *)
Definition selects (ends : bool) (p n : text) : bool := if has_char "*" p then (if ends then whole else within) (map piece_of p) n else text_eqb p n.
Lemma pick_names_spec other ends avail : NoDup avail -> forall req acc, (forall p, In p req -> In "*"%char p -> plain_pattern p) ->
  pick_names other ends avail req acc = Some (acc ++ firsts_after acc (flat_map (fun p => filter (selects ends p) avail) req)).
Proof.
  intros ND. induction req as [|p req IH]; intros acc H; cbn; [now rewrite app_nil_r|].
  rewrite firsts_after_app. destruct (has_char "*" p) eqn:S.
  - unfold matcher. rewrite plain_meta by (apply H; [now left|now apply has_char_in]). rewrite IH by (intros q I; apply H; now right). rewrite add_names_fold. f_equal.
    assert (E : filter (selects ends p) avail = filter ((if ends then whole else within) (map piece_of p)) avail) by (apply filter_ext; intros n; unfold selects; now rewrite S).
    rewrite E, <- app_assoc. reflexivity.
  - rewrite IH by (intros q I; apply H; now right). f_equal.
    assert (E : filter (selects ends p) avail = if mem_text p avail then [p] else []).
    { etransitivity; [|exact (filter_one p avail ND)]. apply filter_ext. intros n. unfold selects. now rewrite S. }
    rewrite E. destruct (mem_text p avail); cbn; [|now rewrite app_nil_r]. unfold add_name, mem_text. destruct (existsb (text_eqb p) acc); cbn; [now rewrite app_nil_r|]. now rewrite <- app_assoc.
Qed.

(** ** Sorted names *)
Lemma sort_nodup l : NoDup l -> NoDup (sort_by text_cmp l).
Proof. intros H. eapply Permutation_NoDup; [symmetry; apply sort_perm|exact H]. Qed.
Lemma sort_in_order l : NoDup l -> in_order (sort_by text_cmp l).
Proof.
  intros ND a x b y c E. assert (S := sort_sorted text_cmp (fun _ => True) TPO_text l). specialize (S ltac:(apply Forall_forall; auto) a x b y c E).
  destruct (text_cmp x y) eqn:C; [|reflexivity|contradiction]. exfalso. apply text_cmp_eq in C. subst y. assert (N := sort_nodup l ND). rewrite E in N. apply NoDup_remove_2 in N. apply N. rewrite !in_app_iff. right. right. now left.
Qed.

(** ** Running tests *)
Section Run.
Variable W : Type. Variable run : text -> W -> W * ended.
Lemma run_test_name tests skip dry n w : tr_name (snd (run_test run tests skip dry n w)) = n.
Proof. unfold run_test. destruct skip; [reflexivity|]. destruct dry; [reflexivity|]. destruct (aget n tests); [|reflexivity]. destruct (run t w) as [w' e]. destruct (judge e) as [[[s o] er] z]. reflexivity. Qed.
(** the results of tests that are run one after another *)
Fixpoint results (tests : list (text * text)) (skip : option text) (dry : bool) (ns : list text) (w : W) : list tresult :=
  match ns with [] => [] | n :: r => snd (run_test run tests skip dry n w) :: results tests skip dry r (fst (run_test run tests skip dry n w)) end.
Definition after (tests : list (text * text)) (skip : option text) (dry : bool) (ns : list text) (w : W) : W := fold_left (fun w n => fst (run_test run tests skip dry n w)) ns w.
Definition first_code (z : Z) (rs : list tresult) : Z := fold_left (fun z r => if (z =? 0)%Z then tr_code r else z) rs z.
(** the tests up to the first that fails *)
Fixpoint until (rs : list tresult) : nat := match rs with [] => 0 | r :: l => S (if (tr_code r =? 0)%Z then until l else 0) end.
Lemma run_all_spec tests skip dry (stop : bool) : forall ns w rs z,
  let k := if stop then until (results tests skip dry ns w) else length ns in
  run_all run tests skip dry stop ns w rs z = (after tests skip dry (firstn k ns) w, rs ++ firstn k (results tests skip dry ns w), first_code z (firstn k (results tests skip dry ns w))).
Proof.
  induction ns as [|n ns IH]; intros w rs z k.
  - subst k. cbn. destruct stop; cbn; now rewrite app_nil_r.
  - subst k. cbn [run_all results]. destruct (run_test run tests skip dry n w) as [w1 t] eqn:E. cbn [fst snd].
    assert (Z1 : (if negb (tr_code t =? 0)%Z && (z =? 0)%Z then tr_code t else z) = (if (z =? 0)%Z then tr_code t else z)).
    { destruct (Z.eqb_spec z 0); destruct (Z.eqb_spec (tr_code t) 0); cbn; congruence. }
    rewrite Z1. destruct stop.
    + cbn [until]. destruct (tr_code t =? 0)%Z eqn:C; cbn [negb andb].
      * specialize (IH w1 (rs ++ [t]) (if (z =? 0)%Z then tr_code t else z)). cbn [negb] in IH. cbn in IH. cbn [firstn]. unfold after. cbn [fold_left]. rewrite E. cbn [fst].
        etransitivity; [exact IH|]. rewrite <- app_assoc. reflexivity.
      * cbn [firstn]. unfold after. cbn [fold_left]. rewrite E. reflexivity.
    + cbn [andb]. specialize (IH w1 (rs ++ [t]) (if (z =? 0)%Z then tr_code t else z)). cbn in IH. cbn [length firstn]. unfold after. cbn [fold_left]. rewrite E. cbn [fst]. etransitivity; [exact IH|]. rewrite <- app_assoc. reflexivity.
Qed.
Lemma first_code_keep z rs : z <> 0%Z -> first_code z rs = z.
Proof. intros H. induction rs as [|r rs IH]; [reflexivity|]. unfold first_code in *. cbn. rewrite (proj2 (Z.eqb_neq z 0) H). exact IH. Qed.
Lemma first_code_zero rs : first_code 0 rs = 0%Z <-> Forall (fun r => tr_code r = 0%Z) rs.
Proof.
  induction rs as [|r rs IH]; cbn; [split; constructor|]. change (first_code (tr_code r) rs = 0%Z <-> Forall (fun r => tr_code r = 0%Z) (r :: rs)).
  destruct (Z.eq_dec (tr_code r) 0) as [E|E].
  - rewrite E, IH. split; [now constructor|]. intros F. now inversion F.
  - rewrite first_code_keep by exact E. split; [contradiction|]. intros F. now inversion F.
Qed.
Lemma first_code_in rs : first_code 0 rs = 0%Z \/ exists a r b, rs = a ++ r :: b /\ Forall (fun r => tr_code r = 0%Z) a /\ tr_code r <> 0%Z /\ first_code 0 rs = tr_code r.
Proof.
  induction rs as [|r rs IH]; [now left|]. destruct (Z.eq_dec (tr_code r) 0) as [E|E].
  - change (first_code 0 (r :: rs)) with (first_code (tr_code r) rs). rewrite E. destruct IH as [IH|(a & r' & b & -> & A & N & F)]; [now left|]. right. exists (r :: a), r', b. repeat split; auto.
  - right. exists [], r, rs. repeat split; auto. change (first_code 0 (r :: rs)) with (first_code (tr_code r) rs). now apply first_code_keep.
Qed.
Lemma results_length tests skip dry : forall ns w, length (results tests skip dry ns w) = length ns.
Proof. induction ns as [|n ns IH]; intros w; cbn; [reflexivity|]. now rewrite IH. Qed.
Lemma results_names tests skip dry : forall ns w, map tr_name (results tests skip dry ns w) = ns.
Proof. induction ns as [|n ns IH]; intros w; cbn; [reflexivity|]. now rewrite run_test_name, IH. Qed.
Lemma until_spec rs : Forall (fun r => tr_code r = 0%Z) (removelast (firstn (until rs) rs)) /\ (until rs < length rs -> exists a r, firstn (until rs) rs = a ++ [r] /\ tr_code r <> 0%Z)%nat.
Proof.
  induction rs as [|r rs [I1 I2]]; cbn; [split; [constructor|lia]|]. destruct (Z.eqb_spec (tr_code r) 0) as [E|E].
  - split.
    + cbn. destruct (firstn (until rs) rs) eqn:F; [constructor|]. constructor; [exact E|exact I1].
    + intros H. destruct I2 as (a & q & F & N); [lia|]. exists (r :: a), q. cbn. now rewrite F.
  - split; [constructor|]. intros _. exists [], r. auto.
Qed.
End Run.
