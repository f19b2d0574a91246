From Verif Require Import Base Base_lemmas Maps Range_model Files_model Files_spec Files_proofs Update_spec Update_model.
From Verif Require Bundle_model Try_model Bind_model Bind_spec Bind_text Bind_disk Try_more Try_spec.
From Coq Require Import Lia.
Open Scope string_scope. Open Scope list_scope.

(** ** Trees *)
Lemma aput_forall (P : node -> Prop) c z es : Forall (fun e => P (snd e)) es -> P z -> Forall (fun e => P (snd e)) (aput c z es).
Proof. induction es as [|[d y] es IH]; intros H Z; cbn [aput]; [constructor; [exact Z|constructor]|]. inversion H; subst. destruct (text_eqb c d); constructor; auto. Qed.
Lemma put_tidy p y : tidy y -> forall x x', tidy x -> put p y x = Some x' -> tidy x'.
Proof.
  intros Y. induction p as [|c p IH]; intros x x' X H; cbn in H; [injection H as <-; exact Y|]. destruct x as [| | |es]; try discriminate. apply tidy_dir in X as [N F].
  destruct (put p y _) as [z|] eqn:E; [|discriminate]. injection H as <-. apply tidy_dir. split; [apply nodup_put, N|]. apply (aput_forall tidy); [exact F|]. refine (IH _ _ _ E).
  destruct (aget c es) as [u|] eqn:G; [|apply tidy_dir; repeat constructor]. rewrite Forall_forall in F. apply (F (c, u)). now apply aget_in.
Qed.
Lemma write_put p c x x' : Bind_model.write_file p c x = Some x' -> put p (File c) x = Some x' /\ ~ dir_at p x.
Proof. unfold Bind_model.write_file. destruct (is_dir p x) eqn:D; [discriminate|]. intros H. split; [exact H|now apply not_dir_at]. Qed.
Definition no_dir (y : node) : Prop := match y with Dir _ => False | _ => True end.
Lemma put_leaf p c x x' q z : put p (File c) x = Some x' -> get q x' = Some z -> no_dir z -> get q x = Some z \/ (q = p /\ z = File c).
Proof.
  intros P G N. destruct (comparable_dec p q) as [A|[[r ->]|U]].
  - left. rewrite <- (get_put_apart p (File c) q x x' P A). exact G.
  - rewrite (get_put_under p (File c) r x x' P) in G. destruct r as [|d r]; [|discriminate]. cbn in G. injection G as <-. right. now rewrite app_nil_r.
  - destruct (list_eq_dec (list_eq_dec ascii_dec) q p) as [->|D].
    + rewrite (get_put_same p (File c) x x' P) in G. injection G as <-. now right.
    + destruct (get_put_dir p (File c) q x x' P U D) as [es E]. rewrite E in G. injection G as <-. destruct N.
Qed.
Lemma unpack_leaf dir fs : forall x ok x', unpack dir fs x = (ok, x') -> forall q z, get q x' = Some z -> no_dir z -> get q x = Some z \/ exists p c, In (p, c) fs /\ q = dir ++ p /\ z = File c.
Proof.
  induction fs as [|[p c] fs IH]; intros x ok x' H q z G N; cbn [unpack] in H; [injection H as _ <-; now left|].
  destruct (Bind_model.write_file (dir ++ p) c x) as [y|] eqn:W; [|injection H as _ <-; now left]. apply write_put in W as [W _].
  destruct (IH _ _ _ H q z G N) as [K|(p' & c' & I & E & F)]; [|right; exists p', c'; split; [now right|now split]].
  destruct (put_leaf _ _ _ _ _ _ W K N) as [K'|[-> ->]]; [now left|]. right. exists p, c. split; [now left|now split].
Qed.
Lemma unpack_apart dir fs q : apart dir q -> forall x ok x', unpack dir fs x = (ok, x') -> get q x' = get q x.
Proof.
  intros A. induction fs as [|[p c] fs IH]; intros x ok x' H; cbn [unpack] in H; [now injection H as _ <-|].
  destruct (Bind_model.write_file (dir ++ p) c x) as [y|] eqn:W; [|now injection H as _ <-]. apply write_put in W as [W _]. rewrite (IH _ _ _ H).
  apply (get_put_apart _ _ _ _ _ W). apply (apart_under dir); [exact A|apply under_app].
Qed.
Lemma unpack_tidy dir fs : forall x ok x', tidy x -> unpack dir fs x = (ok, x') -> tidy x'.
Proof.
  induction fs as [|[p c] fs IH]; intros x ok x' X H; cbn [unpack] in H; [now injection H as _ <-|].
  destruct (Bind_model.write_file (dir ++ p) c x) as [y|] eqn:W; [|now injection H as _ <-]. apply write_put in W as [W _]. apply (IH _ _ _ (put_tidy _ (File c) I _ _ X W) H).
Qed.
Fixpoint each_of (p : path) (l : list (text * node)) : list path :=
  match l with [] => [] | (c, z) :: r => (match z with Dir _ => walk (p ++ [c]) z | _ => [p ++ [c]] end) ++ each_of p r end.
Lemma walk_dir p es : walk p (Dir es) = each_of p es.
Proof. cbn [walk]. induction es as [|[c z] es IH]; [reflexivity|]. cbn [each_of]. f_equal. exact IH. Qed.
Lemma walk_in y : tidy y -> forall p q, In q (walk p y) -> exists r z, q = p ++ r /\ r <> [] /\ get r y = Some z /\ no_dir z.
Proof.
  induction y as [c|t| |es IH] using node_rect2; intros D p q H; [destruct H..|]. rewrite walk_dir in H. apply tidy_dir in D as [N F].
  assert (K : exists c z, In (c, z) es /\ In q (match z with Dir _ => walk (p ++ [c]) z | _ => [p ++ [c]] end)).
  { clear -H. induction es as [|[c z] es IH]; [destruct H|]. cbn [each_of] in H. apply in_app_or in H as [H|H]; [exists c, z; split; [now left|exact H]|]. destruct (IH H) as (c' & z' & I & J). exists c', z'. split; [now right|exact J]. }
  destruct K as (c & z & I & J). pose proof (aget_nodup c z es N I) as G. rewrite Forall_forall in IH, F. pose proof (F _ I) as T. cbn [snd] in T.
  destruct z as [c'|t| |fs]; try (destruct J as [<-|[]]; exists [c]; eexists; split; [reflexivity|]; split; [discriminate|]; split; [cbn [get]; rewrite G; reflexivity|exact Logic.I]).
  destruct (IH _ I T (p ++ [c]) q J) as (r & z & -> & _ & E & Z). exists (c :: r), z. split; [now rewrite <- app_assoc|]. split; [discriminate|]. split; [cbn [get]; rewrite G; exact E|exact Z].
Qed.
Lemma walk_all y : forall p r z, get r y = Some z -> no_dir z -> r <> [] -> In (p ++ r) (walk p y).
Proof.
  induction y as [c|t| |es IH] using node_rect2; intros p r z G N R; destruct r as [|c0 r]; try congruence; try discriminate. cbn [get] in G. destruct (aget c0 es) as [u|] eqn:A; [|discriminate].
  apply aget_in in A. rewrite walk_dir. assert (K : In (p ++ c0 :: r) (match u with Dir _ => walk (p ++ [c0]) u | _ => [p ++ [c0]] end)).
  { rewrite Forall_forall in IH. destruct u as [c'|t| |fs]; try (destruct r; [now left|discriminate]). destruct r as [|d r]; [cbn in G; injection G as <-; destruct N|].
    change (c0 :: d :: r) with ([c0] ++ d :: r). rewrite app_assoc. apply (IH _ A (p ++ [c0]) (d :: r) z G N). discriminate. }
  clear -A K. induction es as [|[c z] es IH]; [destruct A|]. cbn [each_of]. apply in_or_app. destruct A as [[= -> ->]|A]; [now left|right; now apply IH].
Qed.
Lemma is_binary_iff p : is_binary p = true <-> program_name (last p []).
Proof. unfold is_binary, program_name. rewrite mem_text_In. cbn [In]. intuition congruence. Qed.
Lemma last_app_ne {A} (d : A) p q : q <> [] -> last (p ++ q) d = last q d.
Proof. intros N. induction p as [|a p IH]; [reflexivity|]. cbn [app last]. destruct (p ++ q) eqn:E; [|rewrite <- E in *; exact IH]. apply app_eq_nil in E. destruct E; congruence. Qed.
Lemma find_binary_some dir x src : tidy x -> find_binary dir x = Some src -> exists r z, src = dir ++ r /\ r <> [] /\ get src x = Some z /\ no_dir z /\ program_name (last r []).
Proof.
  intros X H. unfold find_binary in H. destruct (get dir x) as [y|] eqn:G; [|discriminate]. apply find_some in H as [I B]. apply is_binary_iff in B.
  destruct (walk_in y (Bind_disk.get_tidy dir x y X G) dir src I) as (r & z & -> & R & E & Z). exists r, z. rewrite get_app, G. rewrite last_app_ne in B by exact R. auto.
Qed.
Lemma find_binary_under dir x src : find_binary dir x = Some src -> under dir src.
Proof.
  unfold find_binary. destruct (get dir x) as [y|]; [|discriminate]. intros H. apply find_some in H as [I _]. revert dir src I.
  clear. induction y as [c|t| |es IH] using node_rect2; intros p q H; [destruct H..|]. rewrite walk_dir in H. rewrite Forall_forall in IH. induction es as [|[c z] es IHes]; [destruct H|]. cbn [each_of] in H.
  apply in_app_or in H as [H|H]; [|apply IHes; [intros e I; apply IH; now right|exact H]].
  assert (K : under (p ++ [c]) q) by (destruct z as [c'|t| |fs]; try (destruct H as [<-|[]]; apply under_refl); exact (IH (c, Dir fs) (or_introl eq_refl) (p ++ [c]) q H)).
  apply (under_trans _ (p ++ [c])); [apply under_app|exact K].
Qed.
Lemma gone_apart dir q x : apart dir q -> get q (gone dir x) = get q x.
Proof. intros A. destruct dir as [|c dir]; [destruct A as [A _]; destruct (A (under_nil q))|]. now apply get_del_apart. Qed.
Lemma gone_self dir x : dir <> [] -> get dir (gone dir x) = None.
Proof. intros N. unfold gone. destruct dir; [congruence|]. now apply get_del_self. Qed.

(** ** The temporary directory *)
Lemma temp_parts_plain v : plain_version v -> temp_parts v = [T "rez-next-update-" ++ v].
Proof. intros P. unfold temp_parts. apply split_on_none. intros H. apply in_app_or in H as [H|H]; [cbn in H; repeat destruct H as [H|H]; discriminate||exact H|exact (P H)]. Qed.
Lemma enter_plain tmp v x : plain_version v ->
  enter tmp (temp_parts v) x = match Bind_model.make_dirs (temp_dir tmp v) x with None => (None, x) | Some x' => (Some (temp_dir tmp v), x') end.
Proof. intros P. rewrite (temp_parts_plain v P). cbn [enter]. reflexivity. Qed.
Lemma temp_dir_ne tmp v : temp_dir tmp v <> [].
Proof. unfold temp_dir. destruct tmp; discriminate. Qed.
Lemma make_dirs_apart p x x' q : Bind_model.make_dirs p x = Some x' -> apart p q -> get q x' = get q x.
Proof. unfold Bind_model.make_dirs. intros H A. destruct (get p x) as [[]|]; try discriminate; [injection H as <-; reflexivity|]. now apply (get_put_apart p (Dir [])). Qed.

(** ** What a run does *)
Definition failed (r : answer) : Prop := match r with Failed _ => True | _ => False end.
Lemma install_frame w v dir body x r x' q : install w v dir body x = (r, x') -> apart dir q -> (failed r \/ forall e, u_exe w = Some e -> apart e q) -> get q x' = get q x.
Proof.
  intros H A S. unfold install in H. destruct (u_untar w body) as [fs|]; [|injection H as _ <-; now apply gone_apart].
  destruct (unpack dir fs x) as [ok x1] eqn:U. pose proof (unpack_apart dir fs q A x ok x1 U) as K. destruct ok; [|injection H as _ <-; rewrite gone_apart by exact A; exact K].
  destruct (find_binary dir x1) as [src|] eqn:F; [|injection H as _ <-; rewrite gone_apart by exact A; exact K]. apply find_binary_under in F.
  destruct (u_exe w) as [e|]; [|now injection H as _ <-]. destruct (replace w src e x1) as [x2|] eqn:R; [|now injection H as _ <-]. injection H as <- <-. rewrite gone_apart by exact A. rewrite <- K.
  unfold replace in R. destruct (get src x1) as [y|]; [|discriminate]. destruct (_ && _); [|discriminate]. destruct S as [[]|S]. rewrite (get_put_apart _ _ _ _ _ R (S e eq_refl)).
  apply get_del_apart. apply (apart_under dir); assumption.
Qed.
Lemma fetch_frame w v t dir x r x' q : fetch w v t dir x = (r, x') -> apart dir q -> (failed r \/ forall e, u_exe w = Some e -> apart e q) -> get q x' = get q x.
Proof.
  intros H A S. unfold fetch in H. assert (W : forall f c y y', Bind_model.write_file (dir ++ [f]) c y = Some y' -> get q y' = get q y).
  { intros f c y y' E. apply write_put in E as [E _]. apply (get_put_apart _ _ _ _ _ E). apply (apart_under dir); [exact A|apply under_app]. }
  destruct (u_get w (release_url v (archive_name t))) as [body|]; [|injection H as _ <-; now apply gone_apart].
  destruct (Bind_model.write_file (dir ++ [archive_name t]) body x) as [x1|] eqn:E1; [|injection H as _ <-; now apply gone_apart]. apply W in E1. rewrite <- E1.
  destruct (u_get w (release_url v sums_name)) as [sums|]; [|injection H as _ <-; now apply gone_apart].
  destruct (Bind_model.write_file (dir ++ [sums_name]) sums x1) as [x2|] eqn:E2; [|injection H as _ <-; now apply gone_apart]. apply W in E2. rewrite <- E2.
  destruct (sum_for sums (archive_name t)) as [h|]; [|injection H as _ <-; now apply gone_apart]. destruct (text_eqb (u_sha w body) h); [|injection H as _ <-; now apply gone_apart].
  exact (install_frame _ _ _ _ _ _ _ _ H A S).
Qed.
Lemma execute_frame w a x r x' q : execute w a x = (r, x') -> (forall v, wanted w a = Some v -> plain_version v /\ apart (temp_dir (u_tmp w) v) q) ->
  (failed r \/ forall e, u_exe w = Some e -> apart e q) -> get q x' = get q x.
Proof.
  intros H P S. unfold execute in H. destruct (_ || _); [|now injection H as _ <-]. destruct (wanted w a) as [v|]; [|now injection H as _ <-]. destruct (P v eq_refl) as [V A].
  destruct (a_check a); [now injection H as _ <-|]. destruct (text_eqb v (u_current w) && negb (a_force a)); [now injection H as _ <-|]. destruct (target w) as [t|]; [|now injection H as _ <-].
  rewrite (enter_plain _ _ _ V) in H. destruct (Bind_model.make_dirs (temp_dir (u_tmp w) v) x) as [x1|] eqn:M; [|now injection H as _ <-]. rewrite <- (make_dirs_apart _ _ _ _ M A). exact (fetch_frame _ _ _ _ _ _ _ _ H A S).
Qed.
(** how a run succeeded *)
Lemma updated_inv w a x v x' : execute w a x = (Updated v, x') -> wanted w a = Some v /\ a_check a = false /\ (v <> u_current w \/ a_force a = true) /\ exists t dir x1, target w = Some t /\ enter (u_tmp w) (temp_parts v) x = (Some dir, x1) /\
  exists body x2 sums x3 h fs x4 src exe y x5, u_get w (release_url v (archive_name t)) = Some body /\ Bind_model.write_file (dir ++ [archive_name t]) body x1 = Some x2 /\
    u_get w (release_url v sums_name) = Some sums /\ Bind_model.write_file (dir ++ [sums_name]) sums x2 = Some x3 /\ sum_for sums (archive_name t) = Some h /\ u_sha w body = h /\
    u_untar w body = Some fs /\ unpack dir fs x3 = (true, x4) /\ find_binary dir x4 = Some src /\ u_exe w = Some exe /\ get src x4 = Some y /\ put exe y (del src x4) = Some x5 /\ x' = gone dir x5.
Proof.
  unfold execute. destruct (_ || _); [|intros [=]]. destruct (wanted w a) as [u|]; [|intros [=]]. destruct (a_check a); [destruct (text_eqb u (u_current w)); intros [=]|].
  destruct (text_eqb u (u_current w)) eqn:C; destruct (a_force a) eqn:F; cbn [andb negb]; try (intros [=]; fail).
  all: destruct (target w) as [t|]; [|intros [=]]; destruct (enter (u_tmp w) (temp_parts u) x) as [[dir|] x1] eqn:E; [|intros [=]]; unfold fetch.
  all: destruct (u_get w (release_url u (archive_name t))) as [body|] eqn:G1; [|intros [=]]; destruct (Bind_model.write_file (dir ++ [archive_name t]) body x1) as [x2|] eqn:W1; [|intros [=]].
  all: destruct (u_get w (release_url u sums_name)) as [sums|] eqn:G2; [|intros [=]]; destruct (Bind_model.write_file (dir ++ [sums_name]) sums x2) as [x3|] eqn:W2; [|intros [=]].
  all: destruct (sum_for sums (archive_name t)) as [h|] eqn:S; [|intros [=]]; destruct (text_eqb (u_sha w body) h) eqn:Q; [|intros [=]]; apply text_eqb_eq in Q; unfold install.
  all: destruct (u_untar w body) as [fs|] eqn:UT; [|intros [=]]; destruct (unpack dir fs x3) as [[|] x4] eqn:U; [|intros [=]]; destruct (find_binary dir x4) as [src|] eqn:FB; [|intros [=]].
  all: destruct (u_exe w) as [exe|] eqn:X; [|intros [=]]; destruct (replace w src exe x4) as [x5|] eqn:R; [|intros [=]]; unfold replace in R; destruct (get src x4) as [y|] eqn:Y; [|discriminate]; destruct (_ && _); [|discriminate].
  all: intros [= <- <-]; split; [reflexivity|]; split; [reflexivity|]; split; [try (now right); left; intros ->; rewrite text_eqb_refl in C; discriminate|]; exists t, dir, x1; split; [reflexivity|]; split; [exact E|].
  all: exists body, x2, sums, x3, h, fs, x4, src, exe, y, x5; repeat (split; [assumption||reflexivity|]); reflexivity.
Qed.
