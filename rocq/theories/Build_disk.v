(** Proofs about the disk: packages that are copied, build systems that are found, and artifacts. *)
From Verif Require Import Base Base_lemmas Text_lemmas Maps Sorting Files_model Files_spec Files_proofs Bundle_model Bundle_spec Bundle_proofs Bundle_disk Build_model Build_spec Build_proofs.
From Coq Require Import Lia Permutation.
Open Scope string_scope. Open Scope list_scope.

Lemma skip_spec f : skip_file f = true <-> left_out f.
Proof.
  unfold skip_file, left_out. rewrite !orb_true_iff, mem_in, !ends_with_spec. split.
  - intros [[[H|(r & H)]|(r & H)]|(r & H)]; [left; exact H| | |]; right; exists r; auto.
  - intros [H|(r & [H|[H|H]])]; [left; left; left; exact H|left; left; right|left; right|right]; exists r; exact H.
Qed.
Section Io.
Variable io : nat -> option (option text).
Lemma copy_entry_fills src install f x n : fills_res (install ++ [f]) x (copy_entry io src install f x n).
Proof. unfold copy_entry. destruct (get (src ++ [f]) x) as [[]|]; try constructor; [apply write_file_fills|apply copy_source_fills]. Qed.
Lemma copy_entries_fills src install fs : forall x n, fills_res install x (copy_entries io src install fs x n).
Proof.
  induction fs as [|f fs IH]; intros x n; [constructor|]. cbn [copy_entries]. destruct (skip_file f); [apply IH|]. apply and_then_fills; [|intros x' n' _ _; apply IH].
  pose proof (copy_entry_fills src install f x n) as H. destruct (copy_entry io src install f x n); [|exact I]. eapply fills_below; [|exact H]. apply under_app.
Qed.
Lemma copy_package_fills src install x n : fills_res install x (copy_package_files io src install x n).
Proof. unfold copy_package_files. destruct (get src x) as [[| | |es]|]; try constructor. apply copy_entries_fills. Qed.
Lemma fills_among p q x x' : fills p x x' -> only_among [p; q] x x'.
Proof. intros F r H. eapply fills_apart; [exact F|]. apply H. left. reflexivity. Qed.
Lemma copy_build_among src build install x : match copy_build io src build install x with Ran _ x' _ => only_among [build; install] x x' | Endless => True end.
Proof.
  unfold copy_build, and_then. pose proof (make_dir_fills io build x 0) as A. destruct (make_dir io build x 0) as [[] x1 n1|]; cbn in A; [|eapply fills_among; exact A|exact I].
  pose proof (make_dir_fills io install x1 n1) as B.
  assert (C : fills_res install x1 (and_then (make_dir io install x1 n1) (fun x n => and_then (make_dir io install x n) (copy_package_files io src install)))).
  { apply and_then_fills; [exact B|]. intros x2 n2 _ _. apply and_then_fills; [apply make_dir_fills|]. intros x3 n3 _ _. apply copy_package_fills. }
  unfold and_then in C. match goal with |- match ?r with _ => _ end => change (fills_res install x1 r) in C; destruct r as [ok x' n'|]; [|exact I] end. cbn in C.
  intros q H. rewrite (fills_apart _ _ _ q C) by (apply H; right; left; reflexivity). eapply fills_apart; [exact A|]. apply H. left. reflexivity.
Qed.
Lemma apart_entry src install f g : apart src install -> apart (install ++ [f]) (src ++ [g]).
Proof. intros A. apply apart_sym in A. apply (apart_under install _ _); [|apply under_app]. apply apart_sym. apply (apart_under src _ _); [|apply under_app]. apply apart_sym. exact A. Qed.
Lemma copy_entry_good src install f x n x' n' y : apart src install -> get (src ++ [f]) x = Some y -> tidy y -> copy_entry io src install f x n = Ran true x' n' ->
  forall r, seen (install ++ f :: r) x' = over (seen r y) (seen (install ++ f :: r) x).
Proof.
  intros A E Ht H r. replace (install ++ f :: r) with ((install ++ [f]) ++ r) by (rewrite <- app_assoc; reflexivity). unfold copy_entry in H. rewrite E in H.
  destruct y as [c|t| |es]; try discriminate.
  - rewrite (apart_not_leads _ _ A) in H. exact (copy_over_good io (File c) _ _ _ _ _ Ht H r).
  - unfold copy_source in H. rewrite E in H. rewrite (apart_not_leads (src ++ [f]) (install ++ [f])) in H by (apply apart_sym, apart_entry, A). exact (copy_over_good io (Dir es) _ _ _ _ _ Ht H r).
Qed.
Lemma copy_entries_good src install fs : apart src install -> NoDup fs -> forall es x n x' n', get src x = Some (Dir es) -> tidy (Dir es) -> incl fs (akeys es) ->
  copy_entries io src install fs x n = Ran true x' n' ->
  forall f r, (In f fs /\ ~ left_out f -> seen (install ++ f :: r) x' = over (seen (f :: r) (Dir es)) (seen (install ++ f :: r) x)) /\
    (~ In f fs \/ left_out f -> seen (install ++ f :: r) x' = seen (install ++ f :: r) x).
Proof.
  intros A. induction fs as [|g fs IH]; intros Nd es x n x' n' E Ht Hs H f r.
  { injection H as <- _. split; [intros [[] _]|reflexivity]. }
  cbn [copy_entries] in H. apply NoDup_cons_iff in Nd. destruct Nd as [Ng Nd].
  assert (Hs' : incl fs (akeys es)) by (intros a Ha; apply Hs; right; exact Ha).
  destruct (skip_file g) eqn:Sg.
  { apply skip_spec in Sg. destruct (IH Nd es x n x' n' E Ht Hs' H f r) as [P Q]. split.
    - intros [[<-|F] L]; [contradiction|]. apply P. auto.
    - intros [F|L]; apply Q; [left; intros C; apply F; right; exact C|right; exact L]. }
  apply and_then_good in H. destruct H as (x1 & n1 & H1 & H2).
  pose proof (copy_entry_fills src install g x n) as F. rewrite H1 in F. cbn in F.
  assert (E1 : get src x1 = Some (Dir es)). { rewrite <- E. eapply fills_apart; [exact F|]. eapply apart_under; [apply apart_sym, A|apply under_app]. }
  destruct (IH Nd es x1 n1 x' n' E1 Ht Hs' H2 f r) as [P Q].
  assert (O : f <> g -> seen (install ++ f :: r) x1 = seen (install ++ f :: r) x).
  { intros Hn. unfold seen. rewrite (fills_apart _ _ _ (install ++ f :: r) F); [reflexivity|]. apply sibling_below. congruence. }
  split.
  - intros [[<-|Hf] L].
    + rewrite Q by (left; exact Ng). destruct (aget g es) as [y|] eqn:Ey.
      2:{ apply aget_none in Ey. exfalso. apply Ey, Hs. left. reflexivity. }
      assert (Eg : get (src ++ [g]) x = Some y) by (rewrite get_app, E; cbn; rewrite Ey; reflexivity).
      rewrite (copy_entry_good src install g x n x1 n1 y A Eg) with (r := r); [| |exact H1].
      * unfold seen. cbn [get]. rewrite Ey. reflexivity.
      * apply tidy_dir in Ht. destruct Ht as [_ Ht]. rewrite Forall_forall in Ht. apply (Ht (g, y)). apply aget_in, Ey.
    + rewrite P by auto. rewrite O; [reflexivity|]. intros ->. contradiction.
  - intros Hf. destruct (text_eq_dec f g) as [->|Hn].
    + destruct Hf as [Hf|L]; [destruct Hf; left; reflexivity|]. apply skip_spec in L. congruence.
    + rewrite <- O by exact Hn. apply Q. destruct Hf as [Hf|L]; [left; intros C; apply Hf; right; exact C|right; exact L].
Qed.
Lemma copy_package_good src install x n x' n' : apart src install -> copy_package_files io src install x n = Ran true x' n' -> (forall y, get src x = Some y -> tidy y) ->
  forall f r, (left_out f -> seen (install ++ f :: r) x' = seen (install ++ f :: r) x) /\
    (~ left_out f -> seen (install ++ f :: r) x' = over (seen (src ++ f :: r) x) (seen (install ++ f :: r) x)).
Proof.
  intros A H Ht f r. unfold copy_package_files in H. destruct (get src x) as [[| | |es]|] eqn:E; try discriminate. specialize (Ht _ eq_refl).
  pose proof (proj1 (proj1 (tidy_dir es) Ht)) as Nd. destruct (copy_entries_good src install (akeys es) A Nd es x n x' n' E Ht (incl_refl _) H f r) as [P Q].
  split; [intros L; apply Q; right; exact L|]. intros L. rewrite (seen_app src), E. destruct (in_dec text_eq_dec f (akeys es)) as [Hf|Hf]; [apply P; auto|].
  rewrite Q by (left; exact Hf). unfold seen at 2. cbn [get]. rewrite (proj2 (aget_none f es)) by exact Hf. reflexivity.
Qed.
Lemma make_dir_seen p x n x' n' : make_dir io p x n = Ran true x' n' -> forall c r, seen (p ++ c :: r) x' = seen (p ++ c :: r) x.
Proof.
  intros H c r. apply make_dir_good in H. destruct H as [[_ ->]|[E H]]; [reflexivity|]. unfold seen. rewrite (get_put_under _ _ _ _ _ H), get_app, E. reflexivity.
Qed.
Lemma copy_build_good src build install x x' n : apart src install -> apart src build -> apart build install -> (forall y, get src x = Some y -> tidy y) -> copy_build io src build install x = Ran true x' n ->
  dir_at src x /\ dir_at build x' /\ dir_at install x' /\ forall f r, (left_out f -> seen (install ++ f :: r) x' = seen (install ++ f :: r) x) /\
    (~ left_out f -> seen (install ++ f :: r) x' = over (seen (src ++ f :: r) x) (seen (install ++ f :: r) x)).
Proof.
  intros A B C Ht H. unfold copy_build in H. apply and_then_good in H. destruct H as (x1 & n1 & H1 & H). apply and_then_good in H. destruct H as (x2 & n2 & H2 & H). apply and_then_good in H. destruct H as (x3 & n3 & H3 & H).
  pose proof (make_dir_fills io build x 0) as F1. rewrite H1 in F1. pose proof (make_dir_fills io install x1 n1) as F2. rewrite H2 in F2. pose proof (make_dir_fills io install x2 n2) as F3. rewrite H3 in F3. pose proof (copy_package_fills src install x3 n3) as F4. rewrite H in F4. cbn in F1, F2, F3, F4.
  assert (F5 : fills install x1 x') by (eapply fills_trans; [exact F2|eapply fills_trans; [exact F3|exact F4]]).
  assert (S : forall r, get (src ++ r) x3 = get (src ++ r) x).
  { intros r. assert (Ai : apart install (src ++ r)) by (apply apart_sym; eapply apart_under; [exact A|apply under_app]). rewrite (fills_apart _ _ _ _ F3 Ai), (fills_apart _ _ _ _ F2 Ai). eapply fills_apart; [exact F1|]. apply apart_sym. eapply apart_under; [exact B|apply under_app]. }
  assert (S0 : get src x3 = get src x) by (specialize (S []); rewrite app_nil_r in S; exact S).
  assert (D1 : dir_at build x1) by (apply make_dir_good in H1; destruct H1 as [[D ->]|[_ P]]; [exact D|exists []; eapply get_put_same, P]).
  assert (Iy : forall c r, seen (install ++ c :: r) x3 = seen (install ++ c :: r) x).
  { intros c r. rewrite (make_dir_seen _ _ _ _ _ H3), (make_dir_seen _ _ _ _ _ H2). unfold seen. rewrite (fills_apart _ _ _ (install ++ c :: r) F1); [reflexivity|]. apply apart_sym. eapply apart_under; [apply apart_sym; exact C|apply under_app]. }
  split. { unfold copy_package_files in H. rewrite S0 in H. destruct (get src x) as [[| | |es]|] eqn:E; try discriminate. exists es. exact E. }
  split. { destruct D1 as [es D1]. exists es. rewrite (fills_apart _ _ _ build F5); [exact D1|apply apart_sym, C]. }
  split.
  - assert (D3 : dir_at install x3) by (apply make_dir_good in H3; destruct H3 as [[D ->]|[_ P]]; [exact D|exists []; eapply get_put_same, P]).
    unfold copy_package_files in H. destruct (get src x3) as [[| | |es]|]; try discriminate. clear - H D3. revert x3 n3 H D3. induction (akeys es) as [|f fs IH]; intros x3 n3 H D3; [injection H as <- _; exact D3|]. cbn [copy_entries] in H.
    destruct (skip_file f); [eapply IH; eauto|]. apply and_then_good in H. destruct H as (x4 & n4 & H4 & H). eapply IH; [exact H|]. pose proof (copy_entry_fills src install f x3 n3) as F. rewrite H4 in F. cbn in F.
    eapply fills_above; [exact F|apply under_app| |exact D3]. intros E. apply (f_equal (@length _)) in E. rewrite app_length in E. cbn in E. lia.
  - intros f r. rewrite <- (Iy f r). destruct (copy_package_good src install x3 n3 x' n A H (fun y Hy => Ht y (eq_trans (eq_sym S0) Hy)) f r) as [P Q]. split; [exact P|]. intros L. rewrite (Q L). f_equal. unfold seen. rewrite S. reflexivity.
Qed.
(** into the package itself *)
Lemma copy_into_itself src build f r x : ~ left_out f -> match copy_build io src build (src ++ f :: r) x with Ran true _ _ => False | _ => True end.
Proof.
  intros L. set (install := src ++ f :: r). unfold copy_build, and_then. destruct (make_dir io build x 0) as [[] x1 n1|]; try exact I.
  destruct (make_dir io install x1 n1) as [[] x2 n2|] eqn:H2; try exact I. destruct (make_dir io install x2 n2) as [[] x3 n3|] eqn:H3; try exact I.
  assert (D : dir_at install x3) by (apply make_dir_good in H3; destruct H3 as [[D ->]|[_ P]]; [exact D|exists []; eapply get_put_same, P]).
  assert (Df : dir_at (src ++ [f]) x3) by (eapply dir_prefix; [exact D|]; exists r; unfold install; rewrite <- app_assoc; reflexivity).
  unfold copy_package_files. destruct (get src x3) as [[| | |es]|] eqn:E; try exact I.
  assert (Hf : In f (akeys es)). { destruct Df as (fs & Df). rewrite get_app, E in Df. cbn in Df. destruct (aget f es) as [z|] eqn:Z; [|discriminate]. apply aget_in in Z. apply (in_map fst) in Z. exact Z. }
  clear E H2 H3 D. revert x3 n3 Df. induction (akeys es) as [|g fs IH]; intros x3 n3 Df; [destruct Hf|]. cbn [copy_entries].
  destruct (text_eq_dec g f) as [->|Hn].
  - destruct (skip_file f) eqn:Sf; [apply skip_spec in Sf; contradiction|]. unfold copy_entry. destruct Df as (ds & ->). unfold copy_source.
    destruct (get (src ++ [f]) x3) as [[| | |ks]|]; cbn [and_then]; try (destruct (make_dir io (install ++ [f]) x3 n3) as [[]|]; exact I).
    replace (leads (src ++ [f]) (install ++ [f])) with true by (symmetry; apply leads_under; exists (r ++ [f]); unfold install; rewrite <- !app_assoc; reflexivity).
    replace (leads (install ++ [f]) (src ++ [f])) with false.
    + destruct (make_dir io (install ++ [f]) x3 n3) as [[]|]; exact I.
    + symmetry. destruct (leads (install ++ [f]) (src ++ [f])) eqn:Lx; [|reflexivity]. apply leads_under in Lx. destruct Lx as (q & Lx). apply (f_equal (@length _)) in Lx. unfold install in Lx. rewrite !app_length in Lx. cbn in Lx. rewrite ?app_length in Lx. cbn in Lx. lia.
  - destruct Hf as [Hf|Hf]; [congruence|]. destruct (skip_file g); [apply IH; assumption|]. unfold and_then. pose proof (copy_entry_fills src install g x3 n3) as F. destruct (copy_entry io src install g x3 n3) as [[] x4 n4|]; try exact I. cbn in F. apply IH; [exact Hf|].
    eapply fills_above; [exact F| | |exact Df].
    + exists (r ++ [g]). unfold install. rewrite <- !app_assoc. reflexivity.
    + intros X. apply (f_equal (@length _)) in X. unfold install in X. rewrite !app_length in X. cbn in X. lia.
Qed.
End Io.
(** ** Calls that do not fail *)
Lemma make_dir_open p x n : (forall q, under q p -> open_at q x) -> exists x', make_dir calm_calls p x n = Ran true x' (S n) /\ dir_at p x' /\ fills p x x' /\ (get p x = None -> get p x' = Some (Dir [])) /\ (get p x <> None -> x' = x).
Proof.
  intros H. destruct (H p (under_refl p)) as [E|D].
  - destruct (make_dir_calm p x n E (fun q U _ => H q U)) as (x' & M & P). exists x'. split; [exact M|]. pose proof (get_put_same _ _ _ _ P) as G. split; [exists []; exact G|]. split; [eapply fills_one, P|]. split; [intros _; exact G|congruence].
  - exists x. split; [apply make_dir_calm_there, D|]. split; [exact D|]. split; [constructor|]. destruct D as (es & D). split; [congruence|reflexivity].
Qed.
Lemma copy_entries_calm src install fs : apart src install -> NoDup fs -> forall es x n, get src x = Some (Dir es) -> tidy (Dir es) -> ordinary (Dir es) -> incl fs (akeys es) -> (forall f, In f fs -> get (install ++ [f]) x = None) -> (forall q, under q install -> open_at q x) ->
  exists x' n', copy_entries calm_calls src install fs x n = Ran true x' n'.
Proof.
  intros A. induction fs as [|g fs IH]; intros Nd es x n E Ht Ho Hs He Hq; [eexists _, _; reflexivity|]. cbn [copy_entries]. apply NoDup_cons_iff in Nd. destruct Nd as [Ng Nd].
  assert (Hs' : incl fs (akeys es)) by (intros a Ha; apply Hs; right; exact Ha).
  destruct (skip_file g); [apply (IH Nd es); try assumption; intros f Hf; apply He; right; exact Hf|].
  destruct (aget g es) as [y|] eqn:Ey. 2:{ apply aget_none in Ey. exfalso. apply Ey, Hs. left. reflexivity. }
  assert (Eg : get (src ++ [g]) x = Some y) by (rewrite get_app, E; cbn; rewrite Ey; reflexivity).
  assert (Ty : tidy y) by (apply tidy_dir in Ht; destruct Ht as [_ Ht]; rewrite Forall_forall in Ht; apply (Ht (g, y)), aget_in, Ey).
  assert (Oy : ordinary y) by (apply ordinary_dir in Ho; rewrite Forall_forall in Ho; apply (Ho (g, y)), aget_in, Ey).
  assert (Q : forall q, under q (install ++ [g]) -> q <> install ++ [g] -> open_at q x) by (intros q U Nq; apply under_snoc in U; destruct U as [U|U]; [contradiction|apply Hq, U]).
  assert (X : exists x1 n1, copy_entry calm_calls src install g x n = Ran true x1 n1).
  { destruct (copy_over_calm y (install ++ [g]) x n Oy Ty (He g (or_introl eq_refl)) Q) as (x1 & n1 & C). exists x1, n1. unfold copy_entry. rewrite Eg. destruct y as [c|t| |ks]; try contradiction.
    - rewrite (apart_not_leads _ _ A). exact C.
    - unfold copy_source. rewrite Eg. rewrite (apart_not_leads (src ++ [g]) (install ++ [g])) by (apply apart_sym, apart_entry, A). exact C. }
  destruct X as (x1 & n1 & X). rewrite X. cbn [and_then]. pose proof (copy_entry_fills calm_calls src install g x n) as F. rewrite X in F. cbn in F.
  apply (IH Nd es).
  - rewrite <- E. eapply fills_apart; [exact F|]. eapply apart_under; [apply apart_sym, A|apply under_app].
  - exact Ht.
  - exact Ho.
  - exact Hs'.
  - intros f Hf. rewrite (fills_apart _ _ _ (install ++ [f]) F); [apply He; right; exact Hf|]. apply sibling. intros ->. contradiction.
  - intros q U. eapply fills_above; [exact F| | |apply Hq, U].
    + eapply under_trans; [exact U|apply under_app].
    + intros ->. destruct U as (z & Z). apply (f_equal (@length _)) in Z. rewrite !app_length in Z. cbn in Z. lia.
Qed.
Lemma copy_build_calm src build install es x : apart src install -> apart src build -> apart build install -> get src x = Some (Dir es) -> tidy (Dir es) -> ordinary (Dir es) ->
  (forall q, under q build \/ under q install -> open_at q x) -> (get install x = None \/ get install x = Some (Dir [])) -> exists x' n, copy_build calm_calls src build install x = Ran true x' n.
Proof.
  intros A B C E Ht Ho Hq Hi. unfold copy_build. destruct (make_dir_open build x 0 (fun q U => Hq q (or_introl U))) as (x1 & -> & _ & F1 & _). cbn [and_then].
  assert (G1 : get install x1 = get install x) by (eapply fills_apart; [exact F1|exact C]).
  assert (Hq1 : forall q, under q install -> open_at q x1).
  { intros q U. destruct (comparable_dec build q) as [P|[P|P]].
    - unfold open_at, dir_at. rewrite (fills_apart _ _ _ q F1 P). apply Hq. right. exact U.
    - exfalso. apply (proj1 C). eapply under_trans; [exact P|exact U].
    - eapply fills_above; [exact F1|exact P| |apply Hq; right; exact U]. intros ->. apply (proj1 C), U. }
  destruct (make_dir_open install x1 1 Hq1) as (x2 & -> & D2 & F2 & G2 & G3). cbn [and_then]. rewrite (make_dir_calm_there install x2 2 D2). cbn [and_then].
  assert (I2 : get install x2 = Some (Dir [])). { destruct Hi as [Hi|Hi]; [apply G2; congruence|]. rewrite G3 by congruence. congruence. }
  unfold copy_package_files. assert (E2 : get src x2 = Some (Dir es)).
  { rewrite (fills_apart _ _ _ src F2) by (apply apart_sym, A). rewrite (fills_apart _ _ _ src F1) by (apply apart_sym, B). exact E. }
  rewrite E2. apply (copy_entries_calm src install (akeys es) A (proj1 (proj1 (tidy_dir es) Ht)) es); [exact E2|exact Ht|exact Ho|apply incl_refl| |].
  - intros f _. rewrite get_app, I2. reflexivity.
  - intros q U. destruct (under_dec install q) as [V|V]; [replace q with install by (apply under_anti; assumption); right; exact D2|]. eapply fills_above; [exact F2|exact U| |apply Hq1, U]. intros ->. apply V, under_refl.
Qed.

(** ** Build systems *)
Fixpoint first_mark (ms : list (text * system)) (src : path) (x : node) : system :=
  match ms with [] => Custom (T "default") | (f, s) :: r => if exists_at (src ++ [f]) x then s else first_mark r src x end.
Lemma first_mark_spec ms src x : (exists l f r, ms = l ++ (f, first_mark ms src x) :: r /\ (forall g u, In (g, u) l -> absent (src ++ [g]) x) /\ ~ absent (src ++ [f]) x) \/
  ((forall g u, In (g, u) ms -> absent (src ++ [g]) x) /\ first_mark ms src x = Custom (T "default")).
Proof.
  induction ms as [|[f s] ms IH]; [right; split; [intros g u []|reflexivity]|]. cbn [first_mark]. destruct (exists_at (src ++ [f]) x) eqn:E.
  - left. exists [], f, ms. split; [reflexivity|]. split; [intros g u []|]. intros Ab. apply exists_at_none in Ab. congruence.
  - apply exists_at_none in E. destruct IH as [(l & g & r & H & Ha & Hb)|[Ha Hb]].
    + left. exists ((f, s) :: l), g, r. split; [cbn; rewrite <- H; reflexivity|]. split; [|exact Hb]. intros h u [F|F]; [injection F as <- <-; exact E|eapply Ha, F].
    + right. split; [|exact Hb]. intros h u [F|F]; [injection F as <- <-; exact E|eapply Ha, F].
Qed.
Lemma detect_first p src x : k_command p = None -> k_system p = None -> detect_with_package p src x = first_mark marks src x.
Proof.
  intros H1 H2. unfold detect_with_package, detect, marks. rewrite H1, H2. cbn [first_mark filter].
  repeat match goal with |- context [exists_at ?q x] => destruct (exists_at q x); cbn [orb]; [reflexivity|] end. reflexivity.
Qed.
Lemma first_mark_same ms src x y : (forall f s, In (f, s) ms -> (absent (src ++ [f]) x <-> absent (src ++ [f]) y)) -> first_mark ms src x = first_mark ms src y.
Proof.
  induction ms as [|[f s] ms IH]; intros H; [reflexivity|]. cbn [first_mark]. rewrite IH by (intros g u Hg; apply (H g u); right; exact Hg).
  specialize (H f s (or_introl eq_refl)). destruct (exists_at (src ++ [f]) x) eqn:A, (exists_at (src ++ [f]) y) eqn:B; try reflexivity; [apply exists_at_none in B; apply H in B|apply exists_at_none in A; apply H in A]; unfold absent in *; apply exists_at_none in A || apply exists_at_none in B; congruence.
Qed.
Lemma first_marked ms src x l f s r : ms = l ++ (f, s) :: r -> (forall g u, In (g, u) l -> absent (src ++ [g]) x) -> ~ absent (src ++ [f]) x -> first_mark ms src x = s.
Proof.
  intros ->. induction l as [|[g u] l IH]; intros H N; cbn [first_mark app].
  - destruct (exists_at (src ++ [f]) x) eqn:E; [reflexivity|]. apply exists_at_none in E. contradiction.
  - replace (exists_at (src ++ [g]) x) with false by (symmetry; apply exists_at_none; apply (H g u); left; reflexivity). apply IH; [intros h v Hh; apply (H h v); right; exact Hh|exact N].
Qed.
Lemma detect_spelled p src x n s : k_command p = None -> k_system p = Some n -> spelled_system n s -> detect_with_package p src x = s.
Proof. intros H1 H2 H. unfold detect_with_package. rewrite H1, H2. unfold spelled_system in H. cbn in H. repeat (destruct H as [H|H]; [injection H as <- <-; reflexivity|]). destruct H. Qed.

(** ** Artifacts *)
Section Artifacts.
Variable sha : text -> text.
Fixpoint scan_each (rel : path) (l : list (text * node)) : list artifact := match l with [] => [] | (c, z) :: r => scan sha (rel ++ [c]) z ++ scan_each rel r end.
Lemma scan_dir rel es : scan sha rel (Dir es) = scan_each rel es.
Proof. cbn. induction es as [|[c z] es IH]; [reflexivity|]. cbn. rewrite IH. reflexivity. Qed.
Lemma scan_in y : forall rel a, tidy y -> In a (scan sha rel y) <-> exists r c, a = mkArtifact (rel ++ r) (length c) (sha c) /\ get r y = Some (File c).
Proof.
  induction y as [c|t| |es IH] using node_rect2; intros rel a Ht.
  - cbn. split; [intros [<-|[]]; exists [], c; rewrite app_nil_r; auto|]. intros (r & d & -> & E). destruct r; [|discriminate]. injection E as <-. rewrite app_nil_r. left. reflexivity.
  - cbn. split; [intros []|]. intros (r & d & _ & E). destruct r; discriminate.
  - cbn. split; [intros []|]. intros (r & d & _ & E). destruct r; discriminate.
  - rewrite scan_dir. apply tidy_dir in Ht. destruct Ht as [Nd Ht].
    assert (X : In a (scan_each rel es) <-> exists k z, In (k, z) es /\ In a (scan sha (rel ++ [k]) z)).
    { clear. induction es as [|[k z] es IHl]; [cbn; split; [intros []|intros (k & z & [] & _)]|]. cbn [scan_each]. rewrite in_app_iff, IHl. split.
      - intros [H|(k' & z' & H & H')]; [exists k, z; split; [left; reflexivity|exact H]|exists k', z'; split; [right; exact H|exact H']].
      - intros (k' & z' & [H|H] & H'); [injection H as <- <-; left; exact H'|right; exists k', z'; auto]. }
    rewrite X. clear X. rewrite Forall_forall in IH, Ht. split.
    + intros (k & z & Hk & Ha). apply (IH (k, z) Hk) in Ha; [|apply (Ht (k, z) Hk)]. destruct Ha as (r & c & -> & E). exists (k :: r), c. split; [rewrite <- app_assoc; reflexivity|]. cbn [get]. rewrite (aget_nodup k z es Nd Hk). exact E.
    + intros (r & c & -> & E). destruct r as [|k r]; [discriminate|]. cbn [get] in E. destruct (aget k es) as [z|] eqn:Ez; [|discriminate]. apply aget_in in Ez. exists k, z. split; [exact Ez|]. apply (IH (k, z) Ez); [apply (Ht (k, z) Ez)|]. exists r, c. rewrite <- app_assoc. split; [reflexivity|exact E].
Qed.
Lemma scan_under y : forall rel a, In a (scan sha rel y) -> under rel (a_path a).
Proof.
  induction y as [c|t| |es IH] using node_rect2; intros rel a H; cbn in H; try destruct H.
  - subst. apply under_refl.
  - destruct H.
  - change (In a (scan sha rel (Dir es))) in H. rewrite scan_dir in H. induction es as [|[k z] es IHl]; [destruct H|]. cbn [scan_each] in H. inversion IH as [|? ? I1 I2]; subst. apply in_app_iff in H. destruct H as [H|H]; [|apply IHl; assumption].
    apply I1 in H. eapply under_trans; [apply under_app|exact H].
Qed.
Lemma scan_once y : forall rel, tidy y -> NoDup (map a_path (scan sha rel y)).
Proof.
  induction y as [c|t| |es IH] using node_rect2; intros rel Ht; try (cbn; repeat constructor; intros []; fail).
  rewrite scan_dir. apply tidy_dir in Ht. destruct Ht as [Nd Ht]. induction es as [|[k z] es IHl]; [constructor|]. cbn [scan_each]. inversion IH as [|? ? I1 I2]; subst. inversion Ht as [|? ? T1 T2]; subst. cbn [akeys map fst] in Nd. apply NoDup_cons_iff in Nd. destruct Nd as [Nk Nd].
  rewrite map_app. cbn [snd] in *. assert (D : forall p, In p (map a_path (scan sha (rel ++ [k]) z)) -> ~ In p (map a_path (scan_each rel es))).
  { intros p Hp Hq. apply in_map_iff in Hp. destruct Hp as (a & <- & Ha). apply scan_under in Ha. apply in_map_iff in Hq. destruct Hq as (b & Eb & Hb). rewrite <- Eb in Ha. clear Eb a.
    clear - Nk Ha Hb. induction es as [|[k' z'] es IHl]; [destruct Hb|]. cbn [scan_each] in Hb. apply in_app_iff in Hb. destruct Hb as [Hb|Hb]; [|apply IHl; [intros C; apply Nk; right; exact C|exact Hb]].
    apply scan_under in Hb. destruct Ha as (r & Ha), Hb as (s & Hb). rewrite Ha in Hb. rewrite <- !app_assoc in Hb. apply app_inv_head in Hb. injection Hb as -> _. apply Nk. left. reflexivity. }
  specialize (IHl I2 Nd T2). specialize (I1 (rel ++ [k]) T1). clear - D IHl I1. revert D I1. generalize (map a_path (scan sha (rel ++ [k]) z)). intros ps D I1. induction ps as [|p ps IHp]; [exact IHl|]. inversion I1; subst. cbn. constructor; [|apply IHp; [intros q Hq; apply D; right; exact Hq|assumption]].
  intros H. apply in_app_iff in H. destruct H as [H|H]; [contradiction|]. exact (D p (or_introl eq_refl) H).
Qed.
End Artifacts.
Lemma validate_errors dlen dir fs x p : In p (fst (fst (validate dlen dir fs x))) <-> exists a, In a fs /\ a_path a = p /\ absent (dir ++ p) x.
Proof.
  induction fs as [|f fs IH]; [cbn; split; [intros []|intros (a & [] & _)]|]. cbn [validate]. destruct (validate dlen dir fs x) as [[es ws] n]. cbn [fst] in IH. unfold absent in *.
  destruct (get (dir ++ a_path f) x) as [y|] eqn:E; cbn [fst].
  - rewrite IH. split; [intros (a & Ha & Hb); exists a; split; [right; exact Ha|exact Hb]|]. intros (a & [<-|Ha] & <- & Hb); [congruence|]. exists a. auto.
  - cbn. rewrite IH. split; [intros [<-|(a & Ha & Hb)]; [exists f; auto|exists a; split; [right; exact Ha|exact Hb]]|]. intros (a & [<-|Ha] & <- & Hb); [left; reflexivity|]. right. exists a. auto.
Qed.
Lemma validate_warnings dlen dir fs x p : In p (snd (fst (validate dlen dir fs x))) <-> exists a y, In a fs /\ a_path a = p /\ get (dir ++ p) x = Some y /\ size_of dlen y <> a_size a.
Proof.
  induction fs as [|f fs IH]; [cbn; split; [intros []|intros (a & y & [] & _)]|]. cbn [validate]. destruct (validate dlen dir fs x) as [[es ws] n]. cbn [fst snd] in IH.
  assert (X : (exists a y, In a (f :: fs) /\ a_path a = p /\ get (dir ++ p) x = Some y /\ size_of dlen y <> a_size a) <-> (a_path f = p /\ exists y, get (dir ++ p) x = Some y /\ size_of dlen y <> a_size f) \/ In p ws).
  { rewrite IH. split.
    - intros (a & y & [<-|Ha] & Hb); [left; split; [apply Hb|exists y; apply Hb]|right; exists a, y; auto].
    - intros [(Hf & y & Hy)|(a & y & Ha & Hb)]; [exists f, y; split; [left; reflexivity|auto]|exists a, y; split; [right; exact Ha|exact Hb]]. }
  rewrite X. clear X IH. destruct (get (dir ++ a_path f) x) as [y|] eqn:E; cbn [fst snd].
  - destruct (Nat.eqb_spec (size_of dlen y) (a_size f)) as [S|S].
    + split; [auto|]. intros [(<- & z & Hz & Hs)|H]; [congruence|exact H].
    + cbn. split; [intros [<-|H]; [left; split; [reflexivity|exists y; auto]|auto]|]. intros [(<- & _)|H]; auto.
  - split; [auto|]. intros [(<- & z & Hz & _)|H]; [congruence|exact H].
Qed.
Lemma validate_valid dlen dir fs x : is_valid (validate dlen dir fs x) = true <-> forall a, In a fs -> ~ absent (dir ++ a_path a) x.
Proof.
  unfold is_valid. pose proof (validate_errors dlen dir fs x) as H. destruct (fst (fst (validate dlen dir fs x))) as [|p ps]; cbn; split; try discriminate; try reflexivity.
  - intros _ a Ha Hb. apply (proj2 (H (a_path a))). exists a. auto.
  - intros G. exfalso. destruct (proj1 (H p) (or_introl eq_refl)) as (a & Ha & <- & Hb). exact (G a Ha Hb).
Qed.
Lemma empty_list {A} (l : list A) : (forall a, ~ In a l) -> l = [].
Proof. destruct l as [|a l]; [reflexivity|]. intros H. destruct (H a (or_introl eq_refl)). Qed.
(** other contents of the same size are not noticed *)
Lemma put_same_kind p c d x x' q : get p x = Some (File c) -> put p (File d) x = Some x' -> length c = length d ->
  match get q x, get q x' with Some y, Some y' => forall dlen, size_of dlen y = size_of dlen y' | None, None => True | _, _ => False end.
Proof.
  intros G P L. destruct (comparable_dec p q) as [A|[(r & ->)|U]].
  - rewrite (get_put_apart _ _ _ _ _ P A). destruct (get q x); auto.
  - rewrite (get_put_under _ _ _ _ _ P), get_app, G. destruct r; cbn; auto.
  - destruct (list_eq_dec text_eq_dec q p) as [->|N]; [rewrite (get_put_same _ _ _ _ P), G; cbn; auto|].
    destruct (get_put_dir p (File d) q x x' P U N) as (es & ->). destruct (put_above p (File d) q x x' P U N) as [E|(fs & ->)]; [|reflexivity].
    destruct U as (r & ->). rewrite get_app, E in G. discriminate.
Qed.
Lemma validate_same dlen dir fs p c d x x' : get p x = Some (File c) -> put p (File d) x = Some x' -> length c = length d -> validate dlen dir fs x' = validate dlen dir fs x.
Proof.
  intros G P L. induction fs as [|f fs IH]; [reflexivity|]. cbn [validate]. rewrite IH. destruct (validate dlen dir fs x) as [[es ws] n].
  pose proof (put_same_kind p c d x x' (dir ++ a_path f) G P L) as H. destruct (get (dir ++ a_path f) x), (get (dir ++ a_path f) x'); try contradiction; [rewrite (H dlen)|]; reflexivity.
Qed.
