(** Copying, moving and removing. *)
From Verif Require Import Base Base_lemmas Maps Files_model Files_spec.
From Coq Require Import Lia.

(** ** Paths *)
Lemma under_refl p : under p p.
Proof. exists []. now rewrite app_nil_r. Qed.
Lemma under_app p r : under p (p ++ r).
Proof. now exists r. Qed.
Lemma under_trans p q r : under p q -> under q r -> under p r.
Proof. intros [a ->] [b ->]. exists (a ++ b). now rewrite app_assoc. Qed.
Lemma under_cons c d p q : under (c :: p) (d :: q) <-> c = d /\ under p q.
Proof. split; [intros [r E]; injection E as <- ->; split; [reflexivity|now exists r]|intros [<- [r ->]]; now exists r]. Qed.
Lemma under_nil p : under [] p.
Proof. now exists p. Qed.
Lemma not_under_nil c p : ~ under (c :: p) [].
Proof. intros [r E]. discriminate. Qed.
Lemma leads_under p q : leads p q = true <-> under p q.
Proof.
  revert q. induction p as [|c p IH]; intros q; cbn [leads]; [split; auto using under_nil|]. destruct q as [|d q].
  - split; [discriminate|intros H; destruct (not_under_nil _ _ H)].
  - rewrite andb_true_iff, IH, under_cons. rewrite text_eqb_eq. reflexivity.
Qed.
Lemma under_dec p q : {under p q} + {~ under p q}.
Proof. destruct (leads p q) eqn:E; [left; now apply leads_under|right; intros H; apply leads_under in H; congruence]. Qed.
Lemma under_anti p q : under p q -> under q p -> p = q.
Proof. intros [r ->] [s E]. rewrite <- app_assoc in E. rewrite <- (app_nil_r p) in E at 1. apply app_inv_head in E. symmetry in E. apply app_eq_nil in E. destruct E as [-> _]. now rewrite app_nil_r. Qed.
Lemma apart_sym p q : apart p q -> apart q p.
Proof. intros [A B]. now split. Qed.
Lemma apart_under p q r : apart p q -> under p r -> apart r q.
Proof.
  intros [A B] [s ->]. split.
  - intros H. apply A. apply (under_trans _ (p ++ s)); [apply under_app|exact H].
  - revert A B. revert q. induction p as [|c p IH]; intros q A B H; [apply A, under_nil|]. destruct q as [|d q]; [apply B, under_nil|]. cbn in H. apply under_cons in H. destruct H as [-> H]. apply (IH q); [intros K; apply A, under_cons; auto|intros K; apply B, under_cons; auto|exact H].
Qed.
Lemma apart_cons c p q : apart (c :: p) (c :: q) <-> apart p q.
Proof. unfold apart. rewrite !under_cons. tauto. Qed.
Lemma apart_cons_inv c p d q : apart (c :: p) (d :: q) -> c <> d \/ (c = d /\ apart p q).
Proof. intros H. destruct (list_eq_dec ascii_dec c d) as [->|N]; [right; split; [reflexivity|]; apply apart_cons with d; exact H|now left]. Qed.
Lemma comparable_dec p q : apart p q \/ under p q \/ under q p.
Proof. destruct (under_dec p q); [tauto|]. destruct (under_dec q p); [tauto|]. left. now split. Qed.

(** ** Trees *)
Lemma get_app p r x : get (p ++ r) x = match get p x with Some y => get r y | None => None end.
Proof. revert x. induction p as [|c p IH]; intros x; [reflexivity|]. cbn [app get]. destruct x as [| | |es]; try reflexivity. destruct (aget c es); [apply IH|reflexivity]. Qed.
Lemma put_dir p y x x' : put p y x = Some x' -> p <> [] -> exists es, x' = Dir es.
Proof. destruct p as [|c p]; [congruence|]. intros H _. cbn in H. destruct x as [| | |es]; try discriminate. destruct (put p y _); [|discriminate]. injection H as <-. eauto. Qed.
Lemma get_put_under p y r : forall x x', put p y x = Some x' -> get (p ++ r) x' = get r y.
Proof.
  induction p as [|c p IH]; intros x x' H; cbn in H; [injection H as <-; reflexivity|]. destruct x as [| | |es]; try discriminate. destruct (put p y _) as [z|] eqn:E; [|discriminate]. injection H as <-.
  cbn [app get]. rewrite aget_put_same. exact (IH _ _ E).
Qed.
Lemma get_put_same p y x x' : put p y x = Some x' -> get p x' = Some y.
Proof. intros H. rewrite <- (app_nil_r p), (get_put_under p y [] x x' H). reflexivity. Qed.
Lemma get_empty q : q <> [] -> get q (Dir []) = None.
Proof. destruct q; [congruence|reflexivity]. Qed.
Lemma get_put_apart p y q : forall x x', put p y x = Some x' -> apart p q -> get q x' = get q x.
Proof.
  revert q. induction p as [|c p IH]; intros q x x' H A; [destruct A as [A _]; destruct (A (under_nil q))|]. cbn in H. destruct x as [| | |es]; try discriminate. destruct (put p y _) as [z|] eqn:E; [|discriminate]. injection H as <-.
  destruct q as [|d q]; [destruct A as [_ A]; destruct (A (under_nil _))|]. cbn [get]. apply apart_cons_inv in A. destruct A as [N|[<- A]].
  - rewrite aget_put_other by congruence. reflexivity.
  - rewrite aget_put_same, (IH q _ _ E A). destruct (aget c es); [reflexivity|]. apply get_empty. intros ->. destruct A as [_ A]. apply A, under_nil.
Qed.
Lemma get_put_dir p y q : forall x x', put p y x = Some x' -> under q p -> q <> p -> exists es, get q x' = Some (Dir es).
Proof.
  revert q. induction p as [|c p IH]; intros q x x' H U N; [destruct U as [r E]; destruct q; [congruence|discriminate]|]. cbn in H. destruct x as [| | |es]; try discriminate. destruct (put p y _) as [z|] eqn:E; [|discriminate]. injection H as <-.
  destruct q as [|d q]; [eexists; reflexivity|]. apply under_cons in U. destruct U as [-> U]. cbn [get]. rewrite aget_put_same. apply (IH q _ _ E U). congruence.
Qed.
Lemma put_above p y q : forall x x', put p y x = Some x' -> under q p -> q <> p -> get q x = None \/ exists es, get q x = Some (Dir es).
Proof.
  revert q. induction p as [|c p IH]; intros q x x' H U N; [destruct U as [r E]; destruct q; [congruence|discriminate]|]. cbn in H. destruct x as [| | |es]; try discriminate. destruct (put p y _) as [z|] eqn:E; [|discriminate].
  destruct q as [|d q]; [right; eexists; reflexivity|]. apply under_cons in U. destruct U as [-> U]. cbn [get]. destruct (IH q _ _ E U) as [K|K]; [congruence| |].
  - destruct (aget c es); [now left|]. now left.
  - destruct (aget c es); [now right|]. now left.
Qed.
Lemma get_del_under p r : p <> [] -> forall x, get (p ++ r) (del p x) = None.
Proof.
  induction p as [|c p IH]; intros N x; [congruence|]. destruct p as [|d p].
  - cbn [app get del]. destruct x as [| | |es]; try reflexivity. rewrite aget_del_same. reflexivity.
  - change ((c :: d :: p) ++ r) with (c :: ((d :: p) ++ r)). destruct x as [| | |es]; try reflexivity. cbn [del]. fold (del (d :: p)). destruct (aget c es) as [z|] eqn:E.
    + cbn [get]. rewrite aget_put_same. apply IH. discriminate.
    + cbn [get]. rewrite E. reflexivity.
Qed.
Lemma get_del_self p x : p <> [] -> get p (del p x) = None.
Proof. intros N. pose proof (get_del_under p [] N x) as K. rewrite app_nil_r in K. exact K. Qed.
Lemma get_del_apart p q : apart p q -> forall x, get q (del p x) = get q x.
Proof.
  revert q. induction p as [|c p IH]; intros q A x; [reflexivity|]. destruct q as [|d q]; [destruct A as [_ A]; destruct (A (under_nil _))|]. apply apart_cons_inv in A. destruct x as [| | |es]; try (destruct p; reflexivity). destruct p as [|c' p].
  - cbn [del get]. destruct A as [N|[_ [A _]]]; [|destruct (A (under_nil q))]. rewrite aget_del_other by congruence. reflexivity.
  - cbn [del]. fold (del (c' :: p)). destruct (aget c es) as [z|] eqn:E; [|reflexivity]. cbn [get]. destruct A as [N|[<- A]].
    + rewrite aget_put_other by congruence. reflexivity.
    + rewrite aget_put_same, E. apply IH, A.
Qed.
Lemma get_del_none p q : forall x, get q x = None -> get q (del p x) = None.
Proof.
  revert q. induction p as [|c p IH]; intros q x H; [exact H|]. destruct q as [|d q]; [discriminate|]. destruct x as [| | |es]; try (destruct p; exact H). cbn [get] in H. destruct p as [|c' p].
  - cbn [del get]. destruct (list_eq_dec ascii_dec d c) as [->|N]; [rewrite aget_del_same; reflexivity|rewrite aget_del_other by exact N; exact H].
  - cbn [del]. fold (del (c' :: p)). destruct (aget c es) as [z|] eqn:E; [|exact H]. cbn [get]. destruct (list_eq_dec ascii_dec d c) as [->|N].
    + rewrite aget_put_same. rewrite E in H. apply IH, H.
    + rewrite aget_put_other by exact N. exact H.
Qed.
Lemma del_dir p q x : under q p -> q <> p -> dir_at q x -> dir_at q (del p x).
Proof.
  revert q x. induction p as [|c p IH]; intros q x U N D; [exact D|]. destruct x as [| | |es]; try (destruct p; exact D). destruct q as [|d q].
  - destruct p as [|c' p]; cbn [del]; [eexists; reflexivity|]. fold (del (c' :: p)). destruct (aget c es); eexists; reflexivity.
  - apply under_cons in U. destruct U as [-> U]. destruct p as [|c' p]; [destruct U as [r E]; destruct q; [congruence|discriminate]|]. cbn [del]. fold (del (c' :: p)). destruct D as [fs D]. cbn [get] in D. destruct (aget c es) as [z|] eqn:E; [|discriminate].
    unfold dir_at. cbn [get]. rewrite aget_put_same. apply IH; [exact U|congruence|]. exists fs. exact D.
Qed.

(** ** Calls *)
Section Io.
Context (io : nat -> option (option node)).
Lemma leave_apart p j q x : apart p q -> get q (leave p j x) = get q x.
Proof. intros A. unfold leave. destruct j as [z|]; [|apply get_del_apart, A]. destruct (put p z x) eqn:E; [|reflexivity]. apply (get_put_apart p z q x); [exact E|exact A]. Qed.
(** whatever a call does is at its path *)
Definition res_disk {A} (r : res A) : option node := match r with Good _ x _ | Bad x => Some x | Stuck => None end.
Definition keeps {A} (q : path) (x : node) (r : res A) : Prop := forall x', res_disk r = Some x' -> get q x' = get q x.
Lemma keeps_bind {A B} q x (r : res A) (f : A -> node -> nat -> res B) : keeps q x r -> (forall a x' n, r = Good a x' n -> get q x' = get q x -> keeps q x' (f a x' n)) -> keeps q x (bind r f).
Proof.
  intros H K x' E. destruct r as [a y n|y|]; cbn [bind] in E.
  - rewrite (K a y n eq_refl (H y eq_refl) x' E). apply H. reflexivity.
  - apply H. exact E.
  - discriminate.
Qed.
Lemma keeps_good {A} q (a : A) x n : keeps q x (Good a x n).
Proof. intros x' [= <-]. reflexivity. Qed.
Lemma keeps_bad {A} q x : keeps q x (@Bad A x).
Proof. intros x' [= <-]. reflexivity. Qed.
Lemma create_keeps p y q x n : apart p q -> keeps q x (create io p y x n).
Proof.
  intros A x' E. unfold create in E. destruct (io n) as [j|]; [injection E as <-; apply leave_apart, A|]. destruct (put p y x) as [z|] eqn:P; injection E as <-; [apply (get_put_apart p y q x); assumption|reflexivity].
Qed.
Lemma remove_keeps p q x n : apart p q -> keeps q x (remove io p x n).
Proof.
  intros A x' E. unfold remove in E. destruct (io n) as [j|]; [injection E as <-; apply leave_apart, A|]. destruct (is_dir p x); injection E as <-; [apply get_del_apart, A|reflexivity].
Qed.

(** ** Writing a tree *)
Fixpoint node_rect2 (P : node -> Prop) (HF : forall c, P (File c)) (HL : forall t, P (Link t)) (HS : P Special) (HD : forall es, Forall (fun e => P (snd e)) es -> P (Dir es)) (y : node) : P y :=
  match y with
  | File c => HF c | Link t => HL t | Special => HS
  | Dir es => HD es ((fix all (l : list (text * node)) : Forall (fun e => P (snd e)) l := match l with [] => Forall_nil _ | e :: r => Forall_cons _ (node_rect2 P HF HL HS HD (snd e)) (all r) end) es)
  end.
Definition write_all (p : path) : list (text * node) -> nat * nat -> node -> nat -> res (nat * nat) :=
  fix loop (l : list (text * node)) (acc : nat * nat) (x : node) (n : nat) : res (nat * nat) :=
  match l with
  | [] => Good acc x n
  | (c, z) :: r => bind (write_tree io (p ++ [c]) z x n) (fun s => loop r (fst acc + fst s, snd acc + snd s))
  end.
Lemma write_all_cons p c z r acc x n : write_all p ((c, z) :: r) acc x n = bind (write_tree io (p ++ [c]) z x n) (fun s => write_all p r (fst acc + fst s, snd acc + snd s)).
Proof. reflexivity. Qed.
Lemma write_tree_dir p es x n : write_tree io p (Dir es) x n = bind (create io p (Dir []) x n) (fun _ => write_all p es (0, 0)).
Proof. reflexivity. Qed.
Lemma write_keeps q y : forall p x n, apart p q -> keeps q x (write_tree io p y x n).
Proof.
  induction y as [c|t| |es IH] using node_rect2; intros p x n A.
  - cbn [write_tree]. apply keeps_bind; [apply create_keeps, A|]. intros a x' m _ _. apply keeps_good.
  - cbn [write_tree]. apply keeps_bind; [apply create_keeps, A|]. intros a x' m _ _. apply keeps_good.
  - apply keeps_good.
  - rewrite write_tree_dir. apply keeps_bind; [apply create_keeps, A|]. intros _ x' m _ _. generalize (0, 0) as acc. revert x' m. induction IH as [|[c z] l Hz _ IHl]; intros x' m acc; [apply keeps_good|]. rewrite write_all_cons. cbn [snd] in Hz.
    apply keeps_bind; [apply Hz; apply (apart_under p q); [exact A|apply under_app]|]. intros s x2 k _ _. apply IHl.
Qed.
Fixpoint sum_files (l : list (text * node)) : nat := match l with [] => 0 | (_, z) :: r => count_files z + sum_files r end.
Fixpoint sum_bytes (l : list (text * node)) : nat := match l with [] => 0 | (_, z) :: r => count_bytes z + sum_bytes r end.
Lemma apart_sibling (p : path) (c d : text) r s : c <> d -> apart ((p ++ [c]) ++ r) ((p ++ [d]) ++ s).
Proof.
  intros N. rewrite <- !app_assoc. cbn [app]. induction p as [|a p IH]; cbn [app].
  - split; intros H; apply under_cons in H; destruct H; congruence.
  - apply apart_cons, IH.
Qed.
Lemma seen_app p r x : seen (p ++ r) x = match get p x with Some y => seen r y | None => None end.
Proof. unfold seen. rewrite get_app. destruct (get p x); reflexivity. Qed.
Lemma tidy_dir es : tidy (Dir es) <-> NoDup (akeys es) /\ Forall (fun e => tidy (snd e)) es.
Proof.
  cbn [tidy]. apply and_iff_compat_l. induction es as [|[c z] es IH]; [split; constructor|]. split; [intros [A B]; constructor; [exact A|apply IH, B]|]. intros H. inversion H as [|? ? A B]; subst. split; [exact A|apply IH, B].
Qed.
Lemma bind_good {A B} (r : res A) (f : A -> node -> nat -> res B) b x n : bind r f = Good b x n -> exists a x1 n1, r = Good a x1 n1 /\ f a x1 n1 = Good b x n.
Proof. destruct r as [a y m|y|]; cbn; intros H; try discriminate. eauto. Qed.
Lemma create_good p y x n a x' n' : create io p y x n = Good a x' n' -> put p y x = Some x'.
Proof. unfold create. destruct (io n); [discriminate|]. destruct (put p y x); [|discriminate]. intros [= _ <- _]. reflexivity. Qed.
Lemma write_spec y : forall p x n s x' n', tidy y -> get p x = None -> write_tree io p y x n = Good s x' n' ->
  s = (count_files y, count_bytes y) /\ (forall r, seen (p ++ r) x' = filtered (seen r y)).
Proof.
  induction y as [c|t| |es IH] using node_rect2; intros p x n s x' n' T G H.
  - cbn [write_tree] in H. apply bind_good in H. destruct H as ([] & x1 & n1 & H & E). injection E as <- <- _. apply create_good in H. split; [reflexivity|]. intros r. unfold seen. rewrite (get_put_under p _ r _ _ H). destruct r; reflexivity.
  - cbn [write_tree] in H. apply bind_good in H. destruct H as ([] & x1 & n1 & H & E). injection E as <- <- _. apply create_good in H. split; [reflexivity|]. intros r. unfold seen. rewrite (get_put_under p _ r _ _ H). destruct r; reflexivity.
  - cbn [write_tree] in H. injection H as <- <- _. split; [reflexivity|]. intros r. rewrite seen_app, G. destruct r; reflexivity.
  - rewrite write_tree_dir in H. apply bind_good in H. destruct H as ([] & x1 & n1 & H & E). apply create_good in H. apply tidy_dir in T. destruct T as [ND TT].
    assert (Main : forall l acc x1 n1, NoDup (akeys l) -> Forall (fun e => tidy (snd e)) l ->
      Forall (fun e => forall p x n s x' n', tidy (snd e) -> get p x = None -> write_tree io p (snd e) x n = Good s x' n' -> s = (count_files (snd e), count_bytes (snd e)) /\ (forall r, seen (p ++ r) x' = filtered (seen r (snd e)))) l ->
      dir_at p x1 -> (forall c, In c (akeys l) -> get (p ++ [c]) x1 = None) -> write_all p l acc x1 n1 = Good s x' n' ->
      s = (fst acc + sum_files l, snd acc + sum_bytes l) /\ dir_at p x' /\
      (forall c z, aget c l = Some z -> forall r, seen ((p ++ [c]) ++ r) x' = filtered (seen r z)) /\ (forall c, aget c l = None -> forall r, seen ((p ++ [c]) ++ r) x' = seen ((p ++ [c]) ++ r) x1)).
    { clear. induction l as [|[c z] l IHl]; intros acc x1 n1 ND TT IH D F W.
      - cbn in W. injection W as <- <- _. cbn. rewrite !Nat.add_0_r. split; [destruct acc; reflexivity|]. split; [exact D|]. split; [discriminate|reflexivity].
      - rewrite write_all_cons in W. apply bind_good in W. destruct W as (s1 & x2 & n2 & W1 & W2). inversion ND as [|? ? N1 N2]; inversion TT as [|? ? T1 T2]; inversion IH as [|? ? I1 I2]; subst. cbn [snd] in *.
        pose proof (F c (or_introl eq_refl)) as Fc. destruct (I1 _ _ _ _ _ _ T1 Fc W1) as [-> S1].
        assert (Oth : forall d, d <> c -> forall r, get ((p ++ [d]) ++ r) x2 = get ((p ++ [d]) ++ r) x1).
        { intros d Nd r. pose proof (write_keeps ((p ++ [d]) ++ r) z (p ++ [c]) x1 n1) as K. apply K; [|rewrite W1; reflexivity]. rewrite <- (app_nil_r (p ++ [c])). apply apart_sibling. congruence. }
        assert (D2 : dir_at p x2).
        { destruct z as [c0|t0| |es0].
          - cbn [write_tree] in W1. apply bind_good in W1. destruct W1 as ([] & y1 & m1 & W1 & E). apply create_good in W1. injection E as <- _. eapply get_put_dir; [exact W1|apply under_app|]. intros K. rewrite <- (app_nil_r p) in K at 1. apply app_inv_head in K. discriminate.
          - cbn [write_tree] in W1. apply bind_good in W1. destruct W1 as ([] & y1 & m1 & W1 & E). apply create_good in W1. injection E as <- _. eapply get_put_dir; [exact W1|apply under_app|]. intros K. rewrite <- (app_nil_r p) in K at 1. apply app_inv_head in K. discriminate.
          - cbn [write_tree] in W1. injection W1 as _ <- _ || injection W1 as <- _. exact D.
          - assert (Q : seen ((p ++ [c]) ++ []) x2 = Some KDir) by (rewrite S1; reflexivity). rewrite <- app_assoc in Q. rewrite seen_app in Q. destruct (get p x2) as [[| | |es2]|] eqn:Gp; try discriminate Q. now exists es2. }
        destruct (IHl (fst acc + count_files z, snd acc + count_bytes z) x2 n2 N2 T2 I2 D2) as (E1 & E2 & E3 & E4).
        { intros d Dd. assert (Nd : d <> c) by (intros ->; contradiction). pose proof (Oth d Nd []) as K. rewrite app_nil_r in K. rewrite K. apply F. now right. }
        { exact W2. }
        split; [rewrite E1; cbn [fst snd sum_files sum_bytes]; f_equal; lia|]. split; [exact E2|]. split.
        + intros d y Hy r. cbn [aget] in Hy. destruct (text_eqb d c) eqn:Nd; [apply text_eqb_eq in Nd; subst d|apply text_eqb_neq in Nd].
          * injection Hy as <-. rewrite E4 by (apply aget_none; exact N1). apply S1.
          * apply E3, Hy.
        + intros d Hy r. cbn [aget] in Hy. destruct (text_eqb d c) eqn:Nd; [discriminate|apply text_eqb_neq in Nd]. rewrite E4 by exact Hy. unfold seen. rewrite Oth by exact Nd. reflexivity. }
    assert (D1 : dir_at p x1) by (exists []; apply (get_put_same p _ x), H).
    destruct (Main es (0, 0) x1 n1 ND TT IH D1) as (E1 & E2 & E3 & E4).
    { intros c _. rewrite (get_put_under p _ [c] _ _ H). reflexivity. } { exact E. }
    split; [exact E1|].
    intros r. destruct r as [|c r].
    + rewrite app_nil_r. destruct E2 as [fs E2]. unfold seen. rewrite E2. reflexivity.
    + replace (p ++ c :: r) with ((p ++ [c]) ++ r) by (rewrite <- app_assoc; reflexivity). destruct (aget c es) as [z|] eqn:Ez.
      * rewrite (E3 c z Ez r). unfold seen at 2. cbn [get]. rewrite Ez. reflexivity.
      * rewrite (E4 c Ez r). unfold seen. cbn [get]. rewrite Ez. rewrite <- app_assoc. cbn [app]. rewrite (get_put_under p _ (c :: r) _ _ H). reflexivity.
Qed.

(** ** Copying *)
Lemma is_dir_at p x : is_dir p x = true <-> dir_at p x.
Proof. unfold is_dir, dir_at. destruct (get p x) as [[| | |es]|]; split; intros H; try discriminate; try (destruct H; discriminate); eauto. Qed.
Lemma not_dir_at p x : is_dir p x = false <-> ~ dir_at p x.
Proof. rewrite <- is_dir_at. destruct (is_dir p x); split; congruence. Qed.
Lemma exists_at_none p x : exists_at p x = false <-> get p x = None.
Proof. unfold exists_at. destruct (get p x); split; congruence. Qed.
Lemma find_located name version bases x p : find_package_dir name version bases x = Some p <-> located name version bases x p.
Proof.
  induction bases as [|b bs IH]; cbn [find_package_dir].
  - split; [discriminate|intros (l & b & r & E & _); destruct l; discriminate].
  - change (b ++ [name; version]) with (vdir name version b). change (b ++ [name; name ++ T "-" ++ version]) with (odir name version b).
    destruct (is_dir (vdir name version b) x) eqn:E1; [|destruct (is_dir (odir name version b) x) eqn:E2].
    + apply is_dir_at in E1. split.
      * intros [= <-]. exists [], b, bs. split; [reflexivity|]. split; [intros a []|]. split; [exact E1|now left].
      * intros (l & c & r & E & F & D & W). destruct l as [|a l]; cbn in E; injection E as <- E.
        -- destruct W as [->|[_ W]]; [reflexivity|contradiction].
        -- destruct (F b (or_introl eq_refl)) as [F1 _]. contradiction.
    + apply not_dir_at in E1. apply is_dir_at in E2. split.
      * intros [= <-]. exists [], b, bs. split; [reflexivity|]. split; [intros a []|]. split; [exact E2|]. right. now split.
      * intros (l & c & r & E & F & D & W). destruct l as [|a l]; cbn in E; injection E as <- E.
        -- destruct W as [->|[-> _]]; [contradiction|reflexivity].
        -- destruct (F b (or_introl eq_refl)) as [_ F1]. contradiction.
    + apply not_dir_at in E1, E2. rewrite IH. split.
      * intros (l & c & r & -> & F & D & W). exists (b :: l), c, r. split; [reflexivity|]. split; [intros a [<-|Ha]; [now split|apply F, Ha]|]. now split.
      * intros (l & c & r & E & F & D & W). destruct l as [|a l]; cbn in E; injection E as <- E.
        -- destruct W as [->|[-> _]]; contradiction.
        -- exists l, c, r. split; [exact E|]. split; [intros a' Ha'; apply F; now right|]. now split.
Qed.
Lemma located_dir name version bases x p : located name version bases x p -> dir_at p x.
Proof. intros (l & b & r & _ & _ & D & _). exact D. Qed.
Lemma copy_dir_keeps src dest q x n : apart dest q -> keeps q x (copy_dir io src dest x n).
Proof.
  intros A. unfold copy_dir. destruct (get src x) as [[c|t| |es]|].
  1-3,5: destruct (leads src dest); (apply keeps_bind; [apply create_keeps, A|]); intros [] x' m _ _; [destruct (is_dir src x' && leads dest src); [apply keeps_good|intros ? ?; discriminate]|apply keeps_bad].
  destruct (leads src dest); [intros ? ?; discriminate|]. apply write_keeps, A.
Qed.
(** replacing what is at a place by a copy *)
Definition replace (src dest : path) (force : bool) (x : node) (n : nat) : res (nat * nat) :=
  if exists_at dest x then if force then bind (remove io dest x n) (fun _ => copy_dir io src dest) else Bad x else copy_dir io src dest x n.
Lemma replace_keeps src dest force q x n : apart dest q -> keeps q x (replace src dest force x n).
Proof.
  intros A. unfold replace. destruct (exists_at dest x); [|apply copy_dir_keeps, A]. destruct force; [|apply keeps_bad]. apply keeps_bind; [apply remove_keeps, A|]. intros [] x' m _ _. apply copy_dir_keeps, A.
Qed.
Lemma remove_good p x n a x' n' : remove io p x n = Good a x' n' -> dir_at p x /\ x' = del p x.
Proof. unfold remove. destruct (io n); [discriminate|]. destruct (is_dir p x) eqn:E; [|discriminate]. intros [= _ <- _]. split; [now apply is_dir_at|reflexivity]. Qed.
Lemma apart_intro p q : ~ under p q -> ~ under q p -> apart p q.
Proof. now split. Qed.
Lemma replace_spec src dest force x n s x' n' a : dest <> [] -> src <> dest -> get src x = Some a -> is_dir src x = true -> tidy a -> replace src dest force x n = Good s x' n' ->
  apart src dest /\ s = (count_files a, count_bytes a) /\ forall r, seen (dest ++ r) x' = filtered (seen r a).
Proof.
  intros Nd Ns G D T H. unfold replace in H. destruct (exists_at dest x) eqn:Ex.
  - destruct force; [|discriminate]. apply bind_good in H. destruct H as ([] & x1 & n1 & R & H). apply remove_good in R. destruct R as [Dd ->]. unfold copy_dir in H.
    destruct (under_dec dest src) as [U|U].
    + destruct U as [r ->]. rewrite (get_del_under dest r Nd) in H. destruct (leads (dest ++ r) dest) eqn:L.
      * apply leads_under in L. destruct (Ns (under_anti _ _ L (under_app _ _))).
      * apply bind_good in H. destruct H as ([] & ? & ? & _ & H). discriminate.
    + destruct (under_dec src dest) as [V|V].
      * assert (K : dir_at src (del dest x)) by (apply del_dir; [exact V|exact Ns|now apply is_dir_at]). destruct K as [es K]. rewrite K in H. apply leads_under in V. rewrite V in H. discriminate.
      * assert (A : apart src dest) by now split. rewrite (get_del_apart dest src (apart_sym _ _ A)), G in H. unfold is_dir in D. rewrite G in D. destruct a as [| | |es]; try discriminate D.
        destruct (leads src dest); [discriminate|]. split; [exact A|]. eapply write_spec; [exact T| |exact H]. apply get_del_self, Nd.
  - unfold copy_dir in H. rewrite G in H. unfold is_dir in D. rewrite G in D. destruct a as [| | |es]; try discriminate D. destruct (leads src dest) eqn:L; [discriminate|]. apply exists_at_none in Ex.
    assert (A : apart src dest).
    { split; [rewrite <- leads_under; congruence|]. intros [r E]. rewrite E, get_app, Ex in G. discriminate. }
    split; [exact A|]. eapply write_spec; [exact T|exact Ex|exact H].
Qed.
Lemma tree_of dest a x' : (forall r, seen (dest ++ r) x' = filtered (seen r a)) -> dir_at [] a -> exists b, get dest x' = Some b /\ same_tree a b.
Proof.
  intros S [es E]. pose proof (S []) as S0. rewrite app_nil_r in S0. unfold seen in S0. rewrite E in S0. cbn in S0. destruct (get dest x') as [b|] eqn:G; [|discriminate]. exists b. split; [reflexivity|].
  intros r. specialize (S r). rewrite seen_app, G in S. exact S.
Qed.
Lemma copy_package_replace name version base bases force x n :
  copy_package io name version base bases force x n =
  match find_package_dir name version bases x with
  | None => Bad x
  | Some src => bind (replace src (base ++ [name; version]) force x n) (fun s x n => Good (mkCopied src (base ++ [name; version]) (fst s) (snd s)) x n)
  end.
Proof.
  unfold copy_package, replace. destruct (find_package_dir name version bases x) as [src|]; [|reflexivity]. destruct (exists_at _ x); [|reflexivity]. destruct force; [|reflexivity]. destruct (remove io _ x n); reflexivity.
Qed.
Lemma vdir_ne name version b : vdir name version b <> [].
Proof. unfold vdir. intros H. apply app_eq_nil in H. destruct H. discriminate. Qed.
Lemma copy_good name version base bases force x n r x' n' src :
  located name version bases x src -> src <> vdir name version base -> (forall a, get src x = Some a -> tidy a) -> copy_package io name version base bases force x n = Good r x' n' ->
  apart src (vdir name version base) /\ only_at (vdir name version base) x x' /\
  exists a b, get src x = Some a /\ get (vdir name version base) x' = Some b /\ same_tree a b /\ r = mkCopied src (vdir name version base) (count_files a) (count_bytes a).
Proof.
  intros L N T H. pose proof (located_dir _ _ _ _ _ L) as D. apply find_located in L. rewrite copy_package_replace, L in H. change (base ++ [name; version]) with (vdir name version base) in H. apply bind_good in H. destruct H as (s & x1 & n1 & R & E). injection E as <- <- _.
  pose proof D as D0. destruct D as [es G]. destruct (replace_spec _ _ _ _ _ _ _ _ (Dir es) (vdir_ne _ _ _) N G (proj2 (is_dir_at _ _) D0) (T _ G) R) as (A & -> & S).
  split; [exact A|]. split. { intros q Q. pose proof (replace_keeps src (vdir name version base) force q x n Q) as K. apply K. rewrite R. reflexivity. }
  destruct (tree_of _ _ _ S) as (b & Gb & Sb); [exists es; reflexivity|]. exists (Dir es), b. now split.
Qed.
Lemma copy_keeps name version base bases force x n q : apart (vdir name version base) q -> keeps q x (copy_package io name version base bases force x n).
Proof.
  intros A. rewrite copy_package_replace. destruct (find_package_dir name version bases x) as [src|]; [|apply keeps_bad]. apply keeps_bind; [apply replace_keeps, A|]. intros s x' m _ _. apply keeps_good.
Qed.
Lemma copy_refuses name version base bases x n : get (vdir name version base) x <> None -> copy_package io name version base bases false x n = Bad x.
Proof.
  intros G. rewrite copy_package_replace. destruct (find_package_dir name version bases x) as [src|]; [|reflexivity]. unfold replace. change (base ++ [name; version]) with (vdir name version base). unfold exists_at. destruct (get (vdir name version base) x); [reflexivity|congruence].
Qed.

(** ** Removing *)
Lemma remove_each_only dlen name version bases : forall acc x n r x' n', remove_each io dlen name version bases acc x n = Good r x' n' ->
  only_among (map (vdir name version) bases) x x' /\ (forall q, get q x = None -> get q x' = None) /\ (forall b, In b bases -> ~ dir_at (vdir name version b) x') /\
  (exists l, fst r = fst acc ++ l /\ forall p, In p l -> (exists b, In b bases /\ p = vdir name version b) /\ get p x <> None).
Proof.
  induction bases as [|b bs IH]; intros acc x n r x' n' H; cbn [remove_each] in H.
  - injection H as <- <- _. split; [intros q _; reflexivity|]. split; [auto|]. split; [intros b []|]. exists []. rewrite app_nil_r. split; [reflexivity|intros p []].
  - change (b ++ [name; version]) with (vdir name version b) in H.
    assert (Step : (get (vdir name version b) x = get (vdir name version b) x /\ ~ dir_at (vdir name version b) x /\ remove_each io dlen name version bs acc x n = Good r x' n') \/
      (dir_at (vdir name version b) x /\ exists m k, remove_each io dlen name version bs (fst acc ++ [vdir name version b], k) (del (vdir name version b) x) m = Good r x' n')).
    { destruct (get (vdir name version b) x) as [[| | |es]|] eqn:G; try (left; split; [reflexivity|]; split; [intros [es D]; congruence|exact H]).
      right. split; [exists es; exact G|]. apply bind_good in H. destruct H as ([] & x1 & n1 & R & H). apply remove_good in R. destruct R as [_ ->]. eauto. }
    destruct Step as [(_ & ND & R)|(D & m & k & R)]; destruct (IH _ _ _ _ _ _ R) as (I1 & I2 & I3 & l & I4 & I5).
    + split; [intros q Q; apply I1; intros p Hp; apply Q; now right|]. split; [exact I2|]. split.
      * intros c [<-|Hc]; [|apply I3, Hc]. intros Dx. apply ND. destruct (get (vdir name version b) x) as [y|] eqn:G; [|destruct Dx as [es Dx]; rewrite (I2 _ G) in Dx; discriminate].
        (* what was there is still not a directory *)
        exfalso. revert R Dx ND G. clear. intros R Dx ND G.
        assert (K : forall bs acc x n r x' n', remove_each io dlen name version bs acc x n = Good r x' n' -> forall q, dir_at q x' -> dir_at q x).
        { clear. induction bs as [|c bs IH]; intros acc x n r x' n' H q D; cbn [remove_each] in H; [injection H as _ <- _; exact D|]. change (c ++ [name; version]) with (vdir name version c) in H.
          destruct (get (vdir name version c) x) as [[| | |es]|] eqn:G; try (eapply IH; [exact H|exact D]). apply bind_good in H. destruct H as ([] & x1 & n1 & R & H). apply remove_good in R. destruct R as [_ ->]. specialize (IH _ _ _ _ _ _ H q D).
          destruct IH as [fs F]. destruct (comparable_dec (vdir name version c) q) as [A|[[s ->]|U]].
          - rewrite get_del_apart in F by exact A. now exists fs.
          - rewrite get_del_under in F by apply vdir_ne. discriminate.
          - destruct U as [s U]. rewrite U, get_app in G. destruct (get q x) as [[| | |gs]|] eqn:Gq; try (destruct s; discriminate G). now exists gs. }
        apply ND. eapply K; [exact R|exact Dx].
      * exists l. split; [exact I4|]. intros p Hp. destruct (I5 p Hp) as ((c & Hc & ->) & Gp). split; [exists c; split; [now right|reflexivity]|exact Gp].
    + assert (Gn : get (vdir name version b) (del (vdir name version b) x) = None) by (apply get_del_self, vdir_ne).
      split; [intros q Q; rewrite I1; [apply get_del_apart, Q; now left|intros p Hp; apply Q; now right]|]. split; [intros q Gq; apply I2, get_del_none, Gq|]. split.
      * intros c [<-|Hc]; [|apply I3, Hc]. intros [es Dx]. rewrite (I2 _ Gn) in Dx. discriminate.
      * exists (vdir name version b :: l). split; [rewrite I4; cbn [fst]; now rewrite <- app_assoc|]. intros p [<-|Hp].
        -- split; [exists b; split; [now left|reflexivity]|]. destruct D as [es D]. congruence.
        -- destruct (I5 p Hp) as ((c & Hc & ->) & Gp). split; [exists c; split; [now right|reflexivity]|]. intros Gx. apply Gp, get_del_none, Gx.
Qed.
Lemma prune_good name bases : forall x n a x' n', prune io name bases x n = Good a x' n' ->
  (forall q, (forall b, In b bases -> ~ under q (b ++ [name])) -> get q x' = get q x) /\ (forall q, get q x = None -> get q x' = None).
Proof.
  induction bases as [|b bs IH]; intros x n a x' n' H; cbn [prune] in H; [injection H as _ <- _; split; auto|].
  destruct (get (b ++ [name]) x) as [[c|t| |[|e es]]|] eqn:G; try (destruct (IH _ _ _ _ _ H) as [I1 I2]; split; [intros q Q; apply I1; intros c0 Hc; apply Q; now right|exact I2]).
  apply bind_good in H. destruct H as ([] & x1 & n1 & R & H). apply remove_good in R. destruct R as [_ ->]. destruct (IH _ _ _ _ _ H) as [I1 I2]. split; [|intros q Gq; apply I2, get_del_none, Gq].
  intros q Q. rewrite I1 by (intros c0 Hc; apply Q; now right). destruct (comparable_dec (b ++ [name]) q) as [A|[[s ->]|U]].
  - apply get_del_apart, A.
  - rewrite get_del_under by (intros E; apply app_eq_nil in E; destruct E; discriminate). rewrite get_app, G. destruct s as [|c0 s]; [|reflexivity]. exfalso. apply (Q b (or_introl eq_refl)). rewrite app_nil_r. apply under_refl.
  - destruct (Q b (or_introl eq_refl) U).
Qed.
Lemma not_above name version b q : apart (vdir name version b) q -> ~ under q (b ++ [name]).
Proof. intros [_ A] U. apply A. apply (under_trans _ (b ++ [name])); [exact U|]. exists [version]. unfold vdir. rewrite <- app_assoc. reflexivity. Qed.
Lemma remove_version_good dlen name version bases force pe x n r x' n' : remove_package_version io dlen name version bases force pe x n = Good r x' n' ->
  only_among (map (vdir name version) bases) x x' /\ (forall q, get q x = None -> get q x' = None) /\ (forall b, In b bases -> ~ dir_at (vdir name version b) x').
Proof.
  intros H. unfold remove_package_version in H. apply bind_good in H. destruct H as (acc & x1 & n1 & R & H). destruct (remove_each_only _ _ _ _ _ _ _ _ _ _ R) as (I1 & I2 & I3 & _).
  destruct (is_nil (fst acc)); [injection H as _ <- _; auto|]. destruct pe; [|injection H as _ <- _; auto].
  apply bind_good in H. destruct H as ([] & x2 & n2 & P & H). injection H as _ <- _. destruct (prune_good _ _ _ _ _ _ _ P) as [J1 J2].
  split; [|split; [intros q Q; apply J2, I2, Q|]].
  - intros q Q. rewrite J1; [apply I1, Q|]. intros b Hb. apply (not_above name version). apply Q. apply in_map, Hb.
  - intros b Hb [es D]. apply (I3 b Hb). destruct (get (vdir name version b) x1) as [y|] eqn:G; [|rewrite (J2 _ G) in D; discriminate].
    (* pruning keeps what is not a directory *)
    revert P D G. clear. intros P D G.
    assert (K : forall bs x n a x' n', prune io name bs x n = Good a x' n' -> forall q, dir_at q x' -> dir_at q x).
    { clear. induction bs as [|c bs IH]; intros x n a x' n' H q D; cbn [prune] in H; [injection H as _ <- _; exact D|].
      destruct (get (c ++ [name]) x) as [[| | |[|e es]]|] eqn:G; try (eapply IH; [exact H|exact D]). apply bind_good in H. destruct H as ([] & x1 & n1 & R & H). apply remove_good in R. destruct R as [_ ->]. specialize (IH _ _ _ _ _ H q D).
      destruct IH as [fs F]. destruct (comparable_dec (c ++ [name]) q) as [A|[[s ->]|U]].
      - rewrite get_del_apart in F by exact A. now exists fs.
      - rewrite get_del_under in F by (intros E; apply app_eq_nil in E; destruct E; discriminate). discriminate.
      - destruct U as [s U]. rewrite U, get_app in G. destruct (get q x) as [[| | |gs]|] eqn:Gq; try (destruct s; discriminate G). now exists gs. }
    eapply K; [exact P|]. now exists es.
Qed.
Lemma scattered_vdirs name version bases : scattered bases -> ForallOrdPairs apart (map (vdir name version) bases).
Proof.
  induction 1 as [|b bs H F IH]; cbn; constructor; [|exact IH]. apply Forall_map. eapply Forall_impl; [|exact H]. cbn. intros c A. apply (apart_under b); [|apply under_app]. apply apart_sym. apply (apart_under c); [apply apart_sym, A|apply under_app].
Qed.
Lemma filter_dirs_ext x y ps : (forall p, In p ps -> get p y = get p x) -> filter (fun p => is_dir p y) ps = filter (fun p => is_dir p x) ps.
Proof. intros H. induction ps as [|p ps IH]; cbn; [reflexivity|]. rewrite IH by (intros; apply H; now right). replace (is_dir p y) with (is_dir p x) by (unfold is_dir; rewrite H by (now left); reflexivity). reflexivity. Qed.
Lemma remove_each_exact dlen name version bases : scattered bases -> forall acc x n r x' n', remove_each io dlen name version bases acc x n = Good r x' n' ->
  fst r = fst acc ++ filter (fun p => is_dir p x) (map (vdir name version) bases).
Proof.
  intros S. induction S as [|b bs A S IH]; intros acc x n r x' n' H; cbn [remove_each] in H; [injection H as <- _ _; cbn; now rewrite app_nil_r|]. cbn [map filter]. change (b ++ [name; version]) with (vdir name version b) in H. unfold is_dir at 1.
  destruct (get (vdir name version b) x) as [[| | |es]|] eqn:G; try (exact (IH _ _ _ _ _ _ H)).
  apply bind_good in H. destruct H as ([] & x1 & n1 & R & H). apply remove_good in R. destruct R as [_ ->]. rewrite (IH _ _ _ _ _ _ H). cbn [fst]. rewrite <- app_assoc. cbn [app]. do 2 f_equal.
  apply filter_dirs_ext. intros p Hp. apply in_map_iff in Hp. destruct Hp as (c & <- & Hc). apply get_del_apart. rewrite Forall_forall in A. specialize (A c Hc).
  apply (apart_under b); [|apply under_app]. apply apart_sym. apply (apart_under c); [apply apart_sym, A|apply under_app].
Qed.
Lemma remove_exact dlen name version bases force pe x n r x' n' : scattered bases -> remove_package_version io dlen name version bases force pe x n = Good r x' n' ->
  rm_paths r = filter (fun p => is_dir p x) (map (vdir name version) bases) /\ rm_count r = length (rm_paths r).
Proof.
  intros S H. unfold remove_package_version in H. apply bind_good in H. destruct H as (acc & x1 & n1 & R & H). pose proof (remove_each_exact _ _ _ _ S _ _ _ _ _ _ R) as E. cbn in E.
  destruct (fst acc) as [|p l] eqn:F; cbn [is_nil] in H; [injection H as <- _ _; split; [exact E|reflexivity]|]. destruct pe.
  - apply bind_good in H. destruct H as ([] & ? & ? & _ & H). injection H as <- _ _. split; [exact E|reflexivity].
  - injection H as <- _ _. split; [exact E|reflexivity].
Qed.
Lemma filter_none {A} (f : A -> bool) l : (forall a, In a l -> f a = false) -> filter f l = [].
Proof. induction l as [|a l IH]; intros H; [reflexivity|]. cbn. rewrite H by now left. apply IH. intros; apply H; now right. Qed.
Lemma remove_none dlen name version bases force pe x n : (forall b, In b bases -> ~ dir_at (vdir name version b) x) -> remove_package_version io dlen name version bases force pe x n = Good (mkRemoved [] 0 0) x n.
Proof.
  intros H. assert (K : forall acc, remove_each io dlen name version bases acc x n = Good acc x n).
  { induction bases as [|b bs IH]; intros acc; [reflexivity|]. cbn [remove_each]. change (b ++ [name; version]) with (vdir name version b). destruct (get (vdir name version b) x) as [[| | |es]|] eqn:G; try (apply IH; intros; apply H; now right). exfalso. apply (H b (or_introl eq_refl)). now exists es. }
  unfold remove_package_version. rewrite K. reflexivity.
Qed.
(** no empty family is left *)
Lemma prune_done name bases : scattered bases -> forall x n a x' n', prune io name bases x n = Good a x' n' -> forall b, In b bases -> get (b ++ [name]) x' <> Some (Dir []).
Proof.
  intros S. induction S as [|b bs A S IH]; intros x n a x' n' H c Hc; [destruct Hc|]. cbn [prune] in H. destruct Hc as [<-|Hc].
  - assert (K : forall x n, prune io name bs x n = Good a x' n' -> get (b ++ [name]) x' = get (b ++ [name]) x).
    { intros y m P. apply (prune_good _ _ _ _ _ _ _ P). intros d Hd U. rewrite Forall_forall in A. specialize (A d Hd). assert (B : apart (b ++ [name]) (d ++ [name])) by (apply (apart_under b); [|apply under_app]; apply apart_sym, (apart_under d); [apply apart_sym, A|apply under_app]). destruct B. contradiction. }
    destruct (get (b ++ [name]) x) as [[| | |[|e es]]|] eqn:G; try (rewrite (K _ _ H), G; discriminate).
    apply bind_good in H. destruct H as ([] & x1 & n1 & R & H). apply remove_good in R. destruct R as [_ ->]. rewrite (K _ _ H). rewrite get_del_self by (intros E; apply app_eq_nil in E; destruct E; discriminate). discriminate.
  - destruct (get (b ++ [name]) x) as [[| | |[|e es]]|] eqn:G; try exact (IH _ _ _ _ _ H c Hc). apply bind_good in H. destruct H as ([] & x1 & n1 & R & H). exact (IH _ _ _ _ _ H c Hc).
Qed.
Lemma remove_pruned dlen name version bases force x n r x' n' : scattered bases -> remove_package_version io dlen name version bases force true x n = Good r x' n' -> rm_count r <> 0 ->
  forall b, In b bases -> get (b ++ [name]) x' <> Some (Dir []).
Proof.
  intros S H C. unfold remove_package_version in H. apply bind_good in H. destruct H as (acc & x1 & n1 & R & H). destruct (is_nil (fst acc)); [injection H as <- _ _; cbn in C; congruence|].
  apply bind_good in H. destruct H as ([] & x2 & n2 & P & H). injection H as _ <- _. exact (prune_done _ _ S _ _ _ _ _ P).
Qed.
(** removals touch nothing else even when they fail *)
Lemma remove_each_keeps dlen name version bases q : (forall b, In b bases -> apart (vdir name version b) q) -> forall acc x n, keeps q x (remove_each io dlen name version bases acc x n).
Proof.
  induction bases as [|b bs IH]; intros Q acc x n; [apply keeps_good|]. cbn [remove_each]. change (b ++ [name; version]) with (vdir name version b).
  destruct (get (vdir name version b) x) as [[| | |es]|]; try (apply IH; intros; apply Q; now right). apply keeps_bind; [apply remove_keeps, Q; now left|]. intros [] x' m _ _. apply IH. intros; apply Q; now right.
Qed.

(** ** Moving *)
Lemma move_good dlen name version base bases force x n r flag x' n' b0 :
  located name version bases x (vdir name version b0) -> In b0 bases -> (forall b, In b bases -> apart (vdir name version base) (vdir name version b)) -> (forall a, get (vdir name version b0) x = Some a -> tidy a) ->
  move_package io dlen name version base bases force false x n = Good (r, flag) x' n' ->
  flag = true /\ only_among (vdir name version base :: map (vdir name version) bases) x x' /\ (forall b, In b bases -> ~ dir_at (vdir name version b) x') /\
  exists a b, get (vdir name version b0) x = Some a /\ get (vdir name version base) x' = Some b /\ same_tree a b /\ r = mkCopied (vdir name version b0) (vdir name version base) (count_files a) (count_bytes a).
Proof.
  intros L Hb0 A T H. unfold move_package in H. pose proof L as L0. apply find_located in L. rewrite L in H. change (base ++ [name; version]) with (vdir name version base) in H.
  destruct (leads _ _ && _); [discriminate|]. apply bind_good in H. destruct H as (r1 & x1 & n1 & C & H). apply bind_good in H. destruct H as (r2 & x2 & n2 & R & H). injection H as <- <- <- _.
  pose proof (A b0 Hb0) as A0. assert (N : vdir name version b0 <> vdir name version base) by (intros E; rewrite E in A0; destruct A0 as [A0 _]; apply A0, under_refl).
  destruct (copy_good _ _ _ _ _ _ _ _ _ _ _ L0 N T C) as (_ & O & a & b & Ga & Gb & S & E). destruct (remove_version_good _ _ _ _ _ _ _ _ _ _ _ R) as (O2 & _ & D2).
  split; [reflexivity|]. split; [intros q Q; rewrite O2 by (intros p Hp; apply Q; now right); apply O, Q; now left|]. split; [exact D2|].
  exists a, b. split; [exact Ga|]. split; [|now split]. rewrite O2; [exact Gb|]. intros p Hp. apply in_map_iff in Hp. destruct Hp as (c & <- & Hc). apply apart_sym, A, Hc.
Qed.
Lemma move_keep_good dlen name version base bases force x n r flag x' n' : move_package io dlen name version base bases force true x n = Good (r, flag) x' n' ->
  flag = false /\ copy_package io name version base bases force x n = Good r x' n'.
Proof.
  intros H. unfold move_package in H. destruct (find_package_dir name version bases x) as [src|]; [|discriminate]. destruct (leads _ _ && _); [discriminate|]. apply bind_good in H. destruct H as (r1 & x1 & n1 & C & H). injection H as <- <- <- <-. now split.
Qed.
Lemma move_same dlen name version base bases force keep x n : located name version bases x (vdir name version base) -> move_package io dlen name version base bases force keep x n = Bad x.
Proof.
  intros L. apply find_located in L. unfold move_package. rewrite L. change (base ++ [name; version]) with (vdir name version base). rewrite (proj2 (leads_under _ _) (under_refl (vdir name version base))). reflexivity.
Qed.
Lemma mv_directory_good src dest force x n x' n' a : dest <> [] -> src <> [] -> src <> dest -> get src x = Some a -> is_dir src x = true -> tidy a -> mv_directory io src dest force false x n = Good tt x' n' ->
  apart src dest /\ only_among [src; dest] x x' /\ get src x' = None /\ exists b, get dest x' = Some b /\ same_tree a b.
Proof.
  intros Nd Nsn Ns G D T H. unfold mv_directory in H. apply bind_good in H. destruct H as ([] & x1 & n1 & C & H).
  assert (R : exists s, replace src dest force x n = Good s x1 n1).
  { unfold cp_directory in C. unfold replace. destruct (exists_at dest x); [destruct force; [|discriminate]|].
    - apply bind_good in C. destruct C as ([] & y & m & C1 & C2). rewrite C1. cbn [bind]. apply bind_good in C2. destruct C2 as (s & y2 & m2 & C2 & E). injection E as <- <-. eauto.
    - apply bind_good in C. destruct C as (s & y2 & m2 & C2 & E). injection E as <- <-. eauto. }
  destruct R as [s R]. destruct (replace_spec _ _ _ _ _ _ _ _ a Nd Ns G D T R) as (A & -> & S). apply remove_good in H. destruct H as [_ ->]. split; [exact A|]. split; [|split].
  - intros q Q. rewrite get_del_apart by (apply Q; now left). pose proof (replace_keeps src dest force q x n (Q dest (or_intror (or_introl eq_refl)))) as K. apply K. rewrite R. reflexivity.
  - apply get_del_self, Nsn.
  - destruct (tree_of _ _ _ S) as (b & Gb & Sb). { unfold is_dir in D. rewrite G in D. destruct a as [| | |es]; try discriminate D. exists es. reflexivity. } exists b. split; [|exact Sb]. rewrite get_del_apart by exact A. exact Gb.
Qed.
Lemma cp_directory_good src dest force x n x' n' a : dest <> [] -> src <> dest -> get src x = Some a -> is_dir src x = true -> tidy a -> cp_directory io src dest force x n = Good tt x' n' ->
  apart src dest /\ only_at dest x x' /\ exists b, get dest x' = Some b /\ same_tree a b.
Proof.
  intros Nd Ns G D T C.
  assert (R : exists s, replace src dest force x n = Good s x' n').
  { unfold cp_directory in C. unfold replace. destruct (exists_at dest x); [destruct force; [|discriminate]|].
    - apply bind_good in C. destruct C as ([] & y & m & C1 & C2). rewrite C1. cbn [bind]. apply bind_good in C2. destruct C2 as (s & y2 & m2 & C2 & E). injection E as <- <-. eauto.
    - apply bind_good in C. destruct C as (s & y2 & m2 & C2 & E). injection E as <- <-. eauto. }
  destruct R as [s R]. destruct (replace_spec _ _ _ _ _ _ _ _ a Nd Ns G D T R) as (A & -> & S). split; [exact A|]. split.
  - intros q Q. pose proof (replace_keeps src dest force q x n Q) as K. apply K. rewrite R. reflexivity.
  - apply (tree_of _ _ _ S). unfold is_dir in D. rewrite G in D. destruct a as [| | |es]; try discriminate D. exists es. reflexivity.
Qed.

(** ** Families, sizes and the command *)
Lemma remove_families_good name bases : forall acc x n r x' n', remove_families io name bases acc x n = Good r x' n' ->
  only_among (map (fun b => b ++ [name]) bases) x x' /\ (forall q, get q x = None -> get q x' = None) /\ (forall b, In b bases -> ~ dir_at (b ++ [name]) x').
Proof.
  induction bases as [|b bs IH]; intros acc x n r x' n' H; cbn [remove_families] in H; [injection H as _ <- _; split; [intros q _; reflexivity|]; split; [auto|intros b []]|].
  assert (NE : b ++ [name] <> []) by (intros E; apply app_eq_nil in E; destruct E; discriminate).
  assert (K : forall bs acc x n r x' n', remove_families io name bs acc x n = Good r x' n' -> forall q, dir_at q x' -> dir_at q x).
  { clear. induction bs as [|c bs IH]; intros acc x n r x' n' H q D; cbn [remove_families] in H; [injection H as _ <- _; exact D|].
    destruct (get (c ++ [name]) x) as [[| | |es]|] eqn:G; try (eapply IH; [exact H|exact D]). apply bind_good in H. destruct H as ([] & x1 & n1 & R & H). apply remove_good in R. destruct R as [_ ->]. specialize (IH _ _ _ _ _ _ H q D).
    destruct IH as [fs F]. destruct (comparable_dec (c ++ [name]) q) as [A|[[s ->]|U]].
    - rewrite get_del_apart in F by exact A. now exists fs.
    - rewrite get_del_under in F by (intros E; apply app_eq_nil in E; destruct E; discriminate). discriminate.
    - destruct U as [s U]. rewrite U, get_app in G. destruct (get q x) as [[| | |gs]|] eqn:Gq; try (destruct s; discriminate G). now exists gs. }
  destruct (get (b ++ [name]) x) as [[| | |es]|] eqn:G.
  4: { apply bind_good in H. destruct H as ([] & x1 & n1 & R & H). apply remove_good in R. destruct R as [_ ->]. destruct (IH _ _ _ _ _ _ H) as (I1 & I2 & I3).
    split; [intros q Q; rewrite I1 by (intros p Hp; apply Q; now right); apply get_del_apart, Q; now left|]. split; [intros q Gq; apply I2, get_del_none, Gq|].
    intros c [<-|Hc]; [|apply I3, Hc]. intros [fs D]. rewrite I2 in D; [discriminate|]. apply get_del_self, NE. }
  all: destruct (IH _ _ _ _ _ _ H) as (I1 & I2 & I3); split; [intros q Q; apply I1; intros p Hp; apply Q; now right|]; split; [exact I2|]; intros c0 [<-|Hc]; [|apply I3, Hc]; intros D; destruct (K _ _ _ _ _ _ _ H _ D) as [fs F]; congruence.
Qed.
End Io.
Lemma dir_size_bytes y : linkless y -> match y with Dir _ => dir_size y = count_bytes y | _ => True end.
Proof.
  induction y as [c|t| |es IH] using node_rect2; intros L; try exact I. induction IH as [|[c z] l Hz _ IHl]; [reflexivity|]. destruct L as [Lz Ll]. specialize (IHl Ll). cbn in IHl |- *. rewrite IHl. f_equal. cbn [snd] in Hz. specialize (Hz Lz).
  destruct z as [c0|t0| |es0]; cbn; try reflexivity; [destruct Lz|exact Hz].
Qed.
Lemma flat_bytes dlen es : flat (Dir es) -> fold_right plus 0 (map (fun e => meta_len dlen (snd e)) es) = count_bytes (Dir es).
Proof. induction 1 as [|[c z] l Hz _ IHl]; [reflexivity|]. cbn in *. rewrite IHl. destruct z; try contradiction. reflexivity. Qed.
Section More.
Context (io : nat -> option (option node)).
Lemma total_ext ps x y : (forall p, In p ps -> get p y = get p x) -> total ps y = total ps x.
Proof. induction ps as [|p ps IH]; intros H; [reflexivity|]. cbn. rewrite H by now left. rewrite IH by (intros; apply H; now right). reflexivity. Qed.
Lemma vdir_apart name version b c : apart b c -> apart (vdir name version b) (vdir name version c).
Proof. intros A. apply (apart_under b); [|apply under_app]. apply apart_sym. apply (apart_under c); [apply apart_sym, A|apply under_app]. Qed.
Lemma remove_each_bytes dlen name version bases : scattered bases -> forall acc x n r x' n', remove_each io dlen name version bases acc x n = Good r x' n' ->
  (forall b y, In b bases -> get (vdir name version b) x = Some y -> flat y) -> snd r = snd acc + total (filter (fun p => is_dir p x) (map (vdir name version) bases)) x.
Proof.
  intros S. induction S as [|b bs A S IH]; intros acc x n r x' n' H F; cbn [remove_each] in H; [injection H as <- _ _; cbn; lia|]. cbn [map filter]. change (b ++ [name; version]) with (vdir name version b) in H. unfold is_dir at 1.
  destruct (get (vdir name version b) x) as [[| | |es]|] eqn:G; try (apply (IH _ _ _ _ _ _ H); intros c0 y0 Hc Gc; exact (F c0 y0 (or_intror Hc) Gc)).
  apply bind_good in H. destruct H as ([] & x1 & n1 & R & H). apply remove_good in R. destruct R as [_ ->].
  assert (K : forall p, In p (map (vdir name version) bs) -> get p (del (vdir name version b) x) = get p x).
  { intros p Hp. apply in_map_iff in Hp. destruct Hp as (c & <- & Hc). apply get_del_apart, vdir_apart. rewrite Forall_forall in A. apply A, Hc. }
  rewrite (IH _ _ _ _ _ _ H). 2: { intros c y Hc Gc. rewrite K in Gc by (apply in_map, Hc). exact (F c y (or_intror Hc) Gc). }
  cbn [snd total]. rewrite G, (filter_dirs_ext x (del (vdir name version b) x)) by exact K. rewrite (total_ext _ x). 2: { intros p Hp. apply filter_In in Hp. apply K, Hp. }
  rewrite (flat_bytes dlen es) by (apply (F b (Dir es)); [now left|exact G]). lia.
Qed.
Lemma remove_bytes dlen name version bases force pe x n r x' n' : scattered bases -> (forall b y, In b bases -> get (vdir name version b) x = Some y -> flat y) ->
  remove_package_version io dlen name version bases force pe x n = Good r x' n' -> rm_bytes r = total (rm_paths r) x.
Proof.
  intros S F H. pose proof (remove_exact _ _ _ _ _ _ _ _ _ _ _ _ S H) as [E _]. unfold remove_package_version in H. apply bind_good in H. destruct H as (acc & x1 & n1 & R & H).
  pose proof (remove_each_bytes _ _ _ _ S _ _ _ _ _ _ R F) as B. cbn [snd plus] in B. rewrite <- E in B.
  destruct (fst acc) as [|p l] eqn:G; cbn [is_nil] in H; [injection H as <- _ _; reflexivity|]. destruct pe.
  - apply bind_good in H. destruct H as ([] & ? & ? & _ & H). injection H as <- _ _. exact B.
  - injection H as <- _ _. exact B.
Qed.
Lemma preview_exact name version bases x : preview_removal name (Some version) bases x = filter (fun p => exists_at p x) (map (vdir name version) bases).
Proof. reflexivity. Qed.
Lemma filter_ext_on {A} (f g : A -> bool) l : (forall a, In a l -> f a = g a) -> filter f l = filter g l.
Proof. induction l as [|a l IH]; intros H; [reflexivity|]. cbn. rewrite H by now left. rewrite IH by (intros; apply H; now right). reflexivity. Qed.
Lemma preview_removed dlen name version bases force pe x n r x' n' : scattered bases -> (forall b, In b bases -> get (vdir name version b) x = None \/ dir_at (vdir name version b) x) ->
  remove_package_version io dlen name version bases force pe x n = Good r x' n' -> rm_paths r = preview_removal name (Some version) bases x.
Proof.
  intros S D H. rewrite (proj1 (remove_exact _ _ _ _ _ _ _ _ _ _ _ _ S H)), preview_exact. apply filter_ext_on. intros p Hp. apply in_map_iff in Hp. destruct Hp as (b & <- & Hb). unfold is_dir, exists_at. destruct (D b Hb) as [->|[es ->]]; reflexivity.
Qed.
(** the command *)
Lemma listed_skip name version b bs : forall k x n, get (vdir name version b) x = None -> remove_listed io k name version (b :: bs) x n = remove_listed io k name version bs x n.
Proof.
  induction k as [|k IH]; intros x n G; [reflexivity|]. cbn [remove_listed].
  assert (E : remove_single io name version (b :: bs) x n = remove_single io name version bs x n).
  { unfold remove_single. cbn [first_path]. unfold exists_at. change (b ++ [name; version]) with (vdir name version b). rewrite G. reflexivity. }
  rewrite E. destruct (remove_single io name version bs x n) as [ok x1 n1|x1|] eqn:R; [|reflexivity|reflexivity]. cbn [bind]. rewrite IH; [reflexivity|].
  unfold remove_single in R. destruct (first_path name version bs x) as [p|]; [|injection R as _ <- _; exact G]. apply bind_good in R. destruct R as ([] & y & m & R & E1). injection E1 as _ <- _. apply remove_good in R. destruct R as [_ ->]. apply get_del_none, G.
Qed.
Lemma listed_all name version bases : scattered bases -> forall x n m x' n', (forall b, In b bases -> get (vdir name version b) x = None \/ dir_at (vdir name version b) x) ->
  remove_listed io (length (filter (fun p => is_dir p x) (map (vdir name version) bases))) name version bases x n = Good m x' n' ->
  m = length (filter (fun p => is_dir p x) (map (vdir name version) bases)) /\ (forall b, In b bases -> get (vdir name version b) x' = None) /\ only_among (map (vdir name version) bases) x x'.
Proof.
  intros S. induction S as [|b bs A S IH]; intros x n m x' n' D H.
  - cbn in H. injection H as <- <- _. split; [reflexivity|]. split; [intros b []|intros q _; reflexivity].
  - assert (NN : forall bases k x n m x' n', remove_listed io k name version bases x n = Good m x' n' -> forall q, get q x = None -> get q x' = None).
    { clear. intros bases k. induction k as [|k IH]; intros x n m x' n' H q G; cbn in H; [injection H as _ <- _; exact G|]. apply bind_good in H. destruct H as (ok & x1 & n1 & R & H). apply bind_good in H. destruct H as (m2 & x2 & n2 & H & E). injection E as _ <- _. apply (IH _ _ _ _ _ H).
      unfold remove_single in R. destruct (first_path name version bases x) as [p|]; [|injection R as _ <- _; exact G]. apply bind_good in R. destruct R as ([] & y & k2 & R & E1). injection E1 as _ <- _. apply remove_good in R. destruct R as [_ ->]. apply get_del_none, G. }
    cbn [map filter] in H |- *. destruct (D b (or_introl eq_refl)) as [G|G].
    + assert (Fb : is_dir (vdir name version b) x = false) by (unfold is_dir; now rewrite G). rewrite Fb in *. rewrite (listed_skip _ _ _ _ _ _ _ G) in H. destruct (IH _ _ _ _ _ (fun c Hc => D c (or_intror Hc)) H) as (I1 & I2 & I3). split; [exact I1|]. split.
      * intros c [<-|Hc]; [eapply NN; [exact H|exact G]|apply I2, Hc].
      * intros q Q. apply I3. intros p Hp. apply Q. now right.
    + assert (Fb : is_dir (vdir name version b) x = true) by now apply is_dir_at. rewrite Fb in *. cbn [length] in H |- *. cbn [remove_listed] in H. apply bind_good in H. destruct H as (ok & x1 & n1 & R & H). apply bind_good in H. destruct H as (m2 & x2 & n2 & H & E). injection E as <- <- _.
      unfold remove_single in R. cbn [first_path] in R. change (b ++ [name; version]) with (vdir name version b) in R. assert (Eb : exists_at (vdir name version b) x = true) by (destruct G as [es G]; unfold exists_at; now rewrite G). rewrite Eb in R. apply bind_good in R. destruct R as ([] & y & k2 & R & E1). injection E1 as <- <- _. apply remove_good in R. destruct R as [_ ->].
      pose proof (get_del_self (vdir name version b) x (vdir_ne _ _ _)) as Gn. rewrite (listed_skip _ _ _ _ _ _ _ Gn) in H.
      assert (K : forall p, In p (map (vdir name version) bs) -> get p (del (vdir name version b) x) = get p x).
      { intros p Hp. apply in_map_iff in Hp. destruct Hp as (c & <- & Hc). apply get_del_apart, vdir_apart. rewrite Forall_forall in A. apply A, Hc. }
      rewrite <- (filter_dirs_ext x (del (vdir name version b) x) _ K) in H. destruct (IH _ _ _ _ _ (fun c Hc => match D c (or_intror Hc) with or_introl Z => or_introl (eq_trans (K _ (in_map _ _ _ Hc)) Z) | or_intror (ex_intro _ es Z) => or_intror (ex_intro _ es (eq_trans (K _ (in_map _ _ _ Hc)) Z)) end) H) as (I1 & I2 & I3).
      rewrite (filter_dirs_ext x _ _ K) in I1. split; [now rewrite I1|]. split.
      * intros c [<-|Hc]; [eapply NN; [exact H|exact Gn]|apply I2, Hc].
      * intros q Q. rewrite I3 by (intros p Hp; apply Q; now right). apply get_del_apart, Q. now left.
Qed.
(** a failing removal keeps everything else *)
Lemma remove_version_keeps dlen name version bases force x n q : (forall b, In b bases -> apart (vdir name version b) q) -> keeps q x (remove_package_version io dlen name version bases force false x n).
Proof.
  intros Q. unfold remove_package_version. apply keeps_bind; [apply remove_each_keeps, Q|]. intros acc x' m _ _. destruct (is_nil (fst acc)); apply keeps_good.
Qed.
End More.
