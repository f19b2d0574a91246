(** Proofs about data written as Python code and YAML. *)
From Verif Require Import Base Base_lemmas Text_lemmas Maps Sorting Json Attr_model Attr_spec.
From Verif Require Rex_model Rex_proofs Bundle_model Bind_text.
From Coq Require Import Lia Permutation.
Open Scope string_scope. Open Scope list_scope.

(** ** Texts *)
Definition QQQ : text := [Q; Q; Q].
Lemma has_in c s : existsb (Ascii.eqb c) s = true <-> In c s.
Proof. rewrite existsb_exists. split; [intros (x & H & E); apply Ascii.eqb_eq in E; now subst|intros H; exists c; split; [assumption|apply Ascii.eqb_refl]]. Qed.
Lemma short_reads q s rest : q <> "010"%char -> ~ In q s -> ~ In "010"%char s -> ~ In "013"%char s -> ~ In "092"%char s -> short_rest q (s ++ q :: rest) = Some (s, rest).
Proof.
  intros N. induction s as [|c s IH]; intros A B C D; cbn [app short_rest].
  - now rewrite Ascii.eqb_refl.
  - cbn [In] in *. destruct (Ascii.eqb_spec c q) as [->|_]; [tauto|]. destruct (Ascii.eqb_spec c "010") as [->|_]; [tauto|]. destruct (Ascii.eqb_spec c "013") as [->|_]; [tauto|]. destruct (Ascii.eqb_spec c "092") as [->|_]; [tauto|].
    cbn [orb]. rewrite IH by tauto. reflexivity.
Qed.
Lemma starts_split p s : starts_with p s = true -> exists r, s = p ++ r.
Proof.
  revert s. induction p as [|c p IH]; intros s H; [now exists s|]. destruct s as [|d s]; [discriminate|]. cbn [starts_with] in H. apply andb_true_iff in H as [A B]. apply Ascii.eqb_eq in A. subst. apply IH in B as (r & ->). now exists r.
Qed.
Lemma long_step c r : starts_with QQQ (c :: r) = false -> c <> "013"%char -> c <> "092"%char -> long_rest (c :: r) = with_char c (long_rest r).
Proof.
  intros A B C. cbn [long_rest]. change ["039"%char; "039"%char; "039"%char] with QQQ. rewrite A. destruct (Ascii.eqb_spec c "013"); [contradiction|]. destruct (Ascii.eqb_spec c "092"); [contradiction|]. reflexivity.
Qed.
Lemma long_escape r : long_rest ("092"%char :: Q :: r) = with_char Q (long_rest r).
Proof. reflexivity. Qed.
Lemma long_end rest : long_rest (QQQ ++ rest) = Some ([], rest).
Proof. reflexivity. Qed.
Definition ESC : text := ["092"%char; Q; "092"%char; Q; "092"%char; Q].
Lemma long_reads k : forall s rest, length s <= k -> ~ In "013"%char s -> ~ In "092"%char s -> (forall r, s <> r ++ [Q]) -> long_rest (Rex_model.replace QQQ ESC s ++ QQQ ++ rest) = Some (s, rest).
Proof.
  induction k as [|k IH]; intros s rest L A B E.
  - destruct s; [apply long_end|cbn in L; lia].
  - destruct s as [|c r]; [apply long_end|]. destruct (starts_with QQQ (c :: r)) eqn:W.
    + apply starts_split in W as (u & W). rewrite W in *. unfold QQQ at 1. rewrite Rex_proofs.replace_hit. fold QQQ. rewrite <- app_assoc. unfold ESC at 1. cbn [app]. rewrite !long_escape. change (Q :: Q :: Q :: rest) with (QQQ ++ rest). rewrite IH; [reflexivity| | | |].
      * rewrite app_length in L. cbn in L. lia.
      * intros K. apply A. apply in_or_app. now right.
      * intros K. apply B. apply in_or_app. now right.
      * intros x ->. apply (E (QQQ ++ x)). now rewrite app_assoc.
    + rewrite Rex_proofs.replace_miss by exact W. cbn [app]. cbn [In length] in *. rewrite long_step; [|clear IH|intros ->; tauto|intros ->; tauto].
      * change (Q :: Q :: Q :: rest) with (QQQ ++ rest). rewrite IH; [reflexivity|lia|tauto|tauto|]. intros x ->. apply (E (c :: x)). reflexivity.
      * destruct (Ascii.eqb_spec Q c) as [<-|N]; [|unfold QQQ; cbn [starts_with]; destruct (Ascii.eqb_spec Q c); [contradiction|reflexivity]].
        destruct r as [|d r]; [exfalso; now apply (E [])|]. destruct (Ascii.eqb_spec Q d) as [<-|N].
        -- destruct r as [|e r]; [exfalso; now apply (E [Q])|]. assert (N : Q <> e) by (intros <-; vm_compute in W; discriminate).
           rewrite Rex_proofs.replace_miss by (unfold QQQ; cbn [starts_with]; destruct (Ascii.eqb_spec Q e); [contradiction|rewrite !andb_false_l, !andb_false_r; reflexivity]).
           rewrite Rex_proofs.replace_miss by (unfold QQQ; cbn [starts_with]; destruct (Ascii.eqb_spec Q e); [contradiction|reflexivity]).
           unfold QQQ. cbn [app starts_with]. destruct (Ascii.eqb_spec Q e); [contradiction|]. rewrite andb_false_l, !andb_false_r. reflexivity.
        -- rewrite Rex_proofs.replace_miss by (unfold QQQ; cbn [starts_with]; destruct (Ascii.eqb_spec Q d); [contradiction|reflexivity]).
           unfold QQQ. cbn [app starts_with]. destruct (Ascii.eqb_spec Q d); [contradiction|]. rewrite andb_false_l, andb_false_r. reflexivity.
Qed.
Lemma py_long s rest : ~ In "013"%char s -> ~ In "092"%char s -> (forall r, s <> r ++ [Q]) -> py_text (long_text s ++ rest) = Some (s, rest).
Proof.
  intros A B C. unfold long_text. change [Q; Q; Q] with QQQ. change ["092"%char; Q; "092"%char; Q; "092"%char; Q] with ESC. rewrite <- !app_assoc. unfold py_text. change ["039"%char; "039"%char; "039"%char] with QQQ. rewrite starts_with_app.
  change (skipn 3 (QQQ ++ ?x)) with x. apply (long_reads (length s)); auto.
Qed.
Lemma no_quote s : ~ In Q s -> Rex_model.replace_char Q ["092"%char; Q] s = s.
Proof.
  intros H. unfold Rex_model.replace_char. induction s as [|c s IH]; [reflexivity|]. cbn [flat_map In] in *. destruct (Ascii.eqb_spec c Q) as [->|_]; [tauto|]. cbn [app]. now rewrite IH by tauto.
Qed.
Lemma py_short s rest : ~ In Q s -> ~ In "010"%char s -> ~ In "013"%char s -> ~ In "092"%char s -> hd_error rest <> Some Q -> py_text ([Q] ++ s ++ [Q] ++ rest) = Some (s, rest).
Proof.
  intros A B C D E. unfold py_text. change ["039"%char; "039"%char; "039"%char] with QQQ. assert (W : starts_with QQQ ([Q] ++ s ++ [Q] ++ rest) = false).
  { unfold QQQ. cbn [app starts_with]. rewrite Ascii.eqb_refl. cbn [andb]. destruct s as [|c s]; cbn [app starts_with].
    - rewrite Ascii.eqb_refl. cbn [andb]. destruct rest as [|x rest]; [reflexivity|]. destruct (Ascii.eqb_spec Q x) as [<-|]; [now elim E|reflexivity].
    - cbn [In] in A. destruct (Ascii.eqb_spec Q c) as [<-|]; [tauto|reflexivity]. }
  rewrite W. cbn [app]. change (Ascii.eqb Q "039") with true. cbv iota. apply short_reads; auto. discriminate.
Qed.
Lemma py_double s rest : s <> [] -> ~ In "034"%char s -> ~ In "010"%char s -> ~ In "013"%char s -> ~ In "092"%char s -> py_text (["034"%char] ++ s ++ ["034"%char] ++ rest) = Some (s, rest).
Proof.
  intros N A B C D. unfold py_text. cbn [app]. change (starts_with ["039"%char; "039"%char; "039"%char] ("034"%char :: s ++ "034"%char :: rest)) with false. cbv iota. change (Ascii.eqb "034" "039") with false. change (Ascii.eqb "034" "034") with true. cbv iota.
  assert (W : starts_with ["034"%char; "034"%char] (s ++ "034"%char :: rest) = false).
  { destruct s as [|c s]; [congruence|]. cbn [app starts_with In] in *. destruct (Ascii.eqb_spec "034" c) as [<-|]; [tauto|reflexivity]. }
  rewrite W. cbn [negb andb]. apply short_reads; auto. discriminate.
Qed.
Lemma py_string_reads s rest : readable s -> hd_error rest <> Some Q -> py_text (py_string s ++ rest) = Some (s, rest).
Proof.
  intros (A & B & C) E. unfold py_string. destruct (existsb (Ascii.eqb "010") s) eqn:NLs.
  - apply py_long; [assumption|assumption|]. apply C. left. now apply has_in.
  - assert (L : ~ In "010"%char s) by (rewrite <- has_in; congruence). destruct (existsb (Ascii.eqb Q) s) eqn:Qs.
    + destruct (existsb (Ascii.eqb "034") s) eqn:Ds; cbn [andb].
      * apply py_long; [assumption|assumption|]. apply C. right. split; now apply has_in.
      * rewrite <- !app_assoc. apply py_double; try assumption; [intros ->; discriminate|]. rewrite <- has_in. congruence.
    + cbn [andb]. assert (M : ~ In Q s) by (rewrite <- has_in; congruence). rewrite no_quote by exact M. rewrite <- !app_assoc. now apply py_short.
Qed.

(** ** Lists *)
Lemma blank_app a b : blank a -> blank b -> blank (a ++ b).
Proof. intros A B c K. apply in_app_iff in K. destruct K; auto. Qed.
Lemma blank_blanks n : blank (blanks n).
Proof. intros c K. apply repeat_spec in K. now left. Qed.
Lemma blank_nl : blank ["010"%char].
Proof. intros c [<-|[]]. now right. Qed.
Lemma blank_nil : blank [].
Proof. intros c []. Qed.
Lemma items_join n l : l <> [] -> (forall x, In x l -> denotes (py_code (n + 4) x) x) -> forall a w, blank a -> blank w -> items (a ++ join comma (map (fun x => blanks n ++ T "    " ++ py_code (n + 4) x) l) ++ w) l.
Proof.
  assert (B4 : blank (T "    ")) by (intros c K; left; cbn in K; intuition congruence).
  induction l as [|x l IH]; intros N H a w A W; [congruence|]. destruct l as [|y l].
  - cbn [map join]. replace (a ++ (blanks n ++ T "    " ++ py_code (n + 4) x) ++ w) with ((a ++ blanks n ++ T "    ") ++ py_code (n + 4) x ++ w) by (rewrite <- !app_assoc; reflexivity).
    apply I_last; [apply blank_app; [assumption|apply blank_app; [apply blank_blanks|assumption]]|assumption|apply H; now left].
  - specialize (IH ltac:(discriminate) (fun z Z => H z (or_intror Z)) ["010"%char] w blank_nl W). cbn [map] in *.
    replace (a ++ join comma ((blanks n ++ T "    " ++ py_code (n + 4) x) :: (blanks n ++ T "    " ++ py_code (n + 4) y) :: map (fun x => blanks n ++ T "    " ++ py_code (n + 4) x) l) ++ w)
      with ((a ++ blanks n ++ T "    ") ++ py_code (n + 4) x ++ [] ++ ","%char :: (["010"%char] ++ join comma ((blanks n ++ T "    " ++ py_code (n + 4) y) :: map (fun x => blanks n ++ T "    " ++ py_code (n + 4) x) l) ++ w)).
    + apply I_more; [apply blank_app; [assumption|apply blank_app; [apply blank_blanks|assumption]]|apply blank_nil|apply H; now left|exact IH].
    + match goal with |- _ = a ++ join comma (?p :: ?q :: ?r) ++ w => change (join comma (p :: q :: r)) with (p ++ comma ++ join comma (q :: r)) end. unfold comma at 2. rewrite <- !app_assoc. reflexivity.
Qed.
Lemma int_denotes z : denotes (show_int z) (JNum z).
Proof.
  unfold show_int. destruct (show_N_spec (Z.abs_N z)) as (A & B & C). destruct (Z.ltb_spec z 0).
  - replace z with (- Z.of_N (Z.abs_N z))%Z at 2 by lia. apply D_neg. split; [|split]; auto.
  - replace z with (Z.of_N (Z.abs_N z)) at 2 by lia. apply D_num. split; [|split]; auto.
Qed.
Fixpoint code_denotes (v : json) : simple v -> forall n, denotes (py_code n v) v.
Proof.
  destruct v as [|b|z|s|l|m]; intros H n.
  - constructor.
  - destruct b; constructor.
  - apply int_denotes.
  - apply D_text. change (py_code n (JStr s)) with (py_string s). rewrite <- (app_nil_r (py_string s)). apply py_string_reads; [exact H|discriminate].
  - assert (K : forall x, In x l -> denotes (py_code (n + 4) x) x).
    { revert H. induction l as [|y l IH]; intros H x X; [destruct X|]. destruct H as [H1 H2]. destruct X as [<-|X]; [apply code_denotes, H1|exact (IH H2 x X)]. }
    clear H code_denotes. cbn [py_code]. destruct l as [|x l].
    + change (["["%char; "010"%char] ++ [] ++ blanks n ++ T "]") with ("["%char :: (["010"%char] ++ blanks n) ++ T "]"). apply D_empty, blank_app; [apply blank_nl|apply blank_blanks].
    + remember (join comma (map (fun x0 : json => blanks n ++ T "    " ++ py_code (n + 4) x0) (x :: l))) as j eqn:J.
      replace (["["%char; "010"%char] ++ (j ++ ["010"%char]) ++ blanks n ++ T "]") with ("["%char :: (["010"%char] ++ j ++ ["010"%char] ++ blanks n) ++ T "]") by (rewrite <- !app_assoc; reflexivity).
      apply D_list. subst j. apply items_join; [discriminate|exact K|apply blank_nl|apply blank_app; [apply blank_nl|apply blank_blanks]].
  - destruct H.
Qed.

(** ** Keys *)
Lemma position_some k l i : position k l = Some i -> nth_error l i = Some k /\ ~ In k (firstn i l).
Proof.
  revert i. induction l as [|x l IH]; intros i H; cbn [position] in H; [discriminate|]. destruct (text_eqb_spec x k) as [->|N].
  - injection H as <-. split; [reflexivity|intros []].
  - destruct (position k l) as [j|]; [|discriminate]. injection H as <-. destruct (IH j eq_refl) as [A B]. split; [exact A|]. cbn [firstn In]. tauto.
Qed.
Lemma position_none k l : position k l = None <-> ~ In k l.
Proof.
  induction l as [|x l IH]; cbn [position In]; [tauto|]. destruct (text_eqb_spec x k) as [->|N]; [split; [discriminate|tauto]|]. destruct (position k l); cbn [option_map]; split; try discriminate; try tauto.
  - intros H. exfalso. apply H. right. destruct IH as [_ IH]. destruct (in_dec (list_eq_dec ascii_dec) k l) as [K|K]; [exact K|]. now apply IH in K.
Qed.
Lemma nth_split2 {A} (l : list A) i j x y : nth_error l i = Some x -> nth_error l j = Some y -> i < j -> exists a b c, l = a ++ x :: b ++ y :: c.
Proof.
  intros X Y L. apply nth_error_split in X as (a & r & -> & <-). rewrite nth_error_app2 in Y by lia. destruct (j - length a) as [|k] eqn:E; [lia|]. cbn [nth_error] in Y. apply nth_error_split in Y as (b & c & -> & _). now exists a, b, c.
Qed.
Lemma key_eq a b : key_cmp a b = Eq -> a = b.
Proof.
  unfold key_cmp. destruct (position a key_order) as [i|] eqn:A, (position b key_order) as [j|] eqn:B; try discriminate.
  - intros H. apply Nat.compare_eq in H. subst. apply position_some in A as [A _], B as [B _]. congruence.
  - apply text_cmp_eq.
Qed.
Lemma key_before a b : key_cmp a b <> Gt -> before key_order a b.
Proof.
  intros H. destruct (key_cmp a b) eqn:E; [left; now apply key_eq| |congruence]. right. unfold key_cmp in E. destruct (position a key_order) as [i|] eqn:A, (position b key_order) as [j|] eqn:B; try discriminate.
  - left. apply Nat.compare_lt_iff in E. apply position_some in A as [A _], B as [B _]. eapply nth_split2; eauto.
  - right. left. split; [|now apply position_none]. apply position_some in A as [A _]. eapply nth_error_In; eauto.
  - right. right. split; [now apply position_none|]. split; [now apply position_none|assumption].
Qed.
Lemma TPO_key : TPO (fun _ => True) key_cmp.
Proof.
  constructor.
  - intros x _. unfold key_cmp. destruct (position x key_order); [apply Nat.compare_refl|apply (tpo_refl _ _ TPO_text); exact I].
  - intros x y _ _. unfold key_cmp. destruct (position x key_order), (position y key_order); [apply Nat.compare_antisym|reflexivity|reflexivity|apply (tpo_anti _ _ TPO_text); exact I].
  - intros x y z _ _ _. unfold key_cmp. destruct (position x key_order), (position y key_order), (position z key_order); try congruence.
    + rewrite !Nat.compare_ngt_iff. lia.
    + apply (tpo_trans _ _ TPO_text); exact I.
Qed.
Definition by_key {A} (a b : text * A) : comparison := key_cmp (fst a) (fst b).
Lemma TPO_by_key {A} : TPO (fun _ => True) (@by_key A).
Proof. constructor; unfold by_key; intros; [apply (tpo_refl _ _ TPO_key)|apply (tpo_anti _ _ TPO_key)|eapply (tpo_trans _ _ TPO_key) with (y := fst y)]; auto. Qed.
Lemma sort_map {A B} (f : A -> B) (c : text * B -> text * B -> comparison) (l : list (text * A)) : c = by_key -> sort_by c (map (fun e => (fst e, f (snd e))) l) = map (fun e => (fst e, f (snd e))) (sort_by by_key l).
Proof.
  intros ->. induction l as [|x l IH]; [reflexivity|]. cbn [map sort_by]. rewrite IH. clear IH. induction (sort_by by_key l) as [|y r IH]; [reflexivity|]. cbn [map insert_by]. unfold by_key at 1 3. cbn [fst]. destruct (key_cmp (fst x) (fst y)); cbn [map]; try rewrite IH; reflexivity.
Qed.
Definition line (n : nat) (e : text * json) : text := blanks n ++ fst e ++ T " = " ++ py_code n (snd e).
Lemma object_code n m : py_code n (JObj m) = join comma (map (line n) (sort_by by_key m)).
Proof. cbn [py_code]. rewrite (sort_map (py_code n)) by reflexivity. rewrite map_map. reflexivity. Qed.
Lemma sorted_unique {A} (l1 l2 : list (text * A)) : NoDup (map fst l1) -> Permutation l1 l2 -> sort_by by_key l1 = sort_by by_key l2.
Proof.
  intros N P. assert (TT : forall l : list (text * A), Forall (fun _ => True) l) by (intros l; apply Forall_forall; auto).
  apply (stable_sorted_unique by_key (fun _ => True) TPO_by_key); [apply TT|apply TT|apply (sort_chain _ _ TPO_by_key), TT|apply (sort_chain _ _ TPO_by_key), TT|rewrite !sort_perm; exact P|].
  intros a _. rewrite !(sort_stable _ _ TPO_by_key) by (exact I || apply TT).
  assert (K : forall l : list (text * A), NoDup (map fst l) -> filter (fun y => is_eq (by_key a y)) l = match find (fun y => is_eq (by_key a y)) l with Some y => [y] | None => [] end).
  { induction l as [|y l IH]; intros D; [reflexivity|]. cbn [filter find map] in *. inversion D as [|? ? D1 D2]; subst. destruct (is_eq (by_key a y)) eqn:E; [|apply IH, D2]. f_equal.
    rewrite <- (app_nil_r []). assert (Z : forall z, In z l -> is_eq (by_key a z) = false).
    { intros z Z. destruct (is_eq (by_key a z)) eqn:F; [|reflexivity]. exfalso. apply D1. unfold by_key in E, F. destruct (key_cmp (fst a) (fst y)) eqn:E1; try discriminate. destruct (key_cmp (fst a) (fst z)) eqn:F1; try discriminate. apply key_eq in E1, F1. rewrite <- E1, F1. now apply in_map. }
    clear - Z. induction l as [|z l IH]; [reflexivity|]. cbn [filter]. rewrite Z by now left. apply IH. intros w W. apply Z. now right. }
  assert (N2 : NoDup (map fst l2)) by (eapply Permutation_NoDup; [apply Permutation_map, P|exact N]).
  rewrite !K by assumption. destruct (find (fun y => is_eq (by_key a y)) l1) as [y|] eqn:F1, (find (fun y => is_eq (by_key a y)) l2) as [z|] eqn:F2; [|exfalso|exfalso|reflexivity].
  - f_equal. apply find_some in F1 as [I1 E1], F2 as [I2 E2]. apply (Permutation_in _ P) in I1. unfold by_key in E1, E2. destruct (key_cmp (fst a) (fst y)) eqn:Y; try discriminate. destruct (key_cmp (fst a) (fst z)) eqn:Z; try discriminate. apply key_eq in Y, Z. destruct y as [k v], z as [k2 v2]. cbn [fst] in *. subst.
    assert (aget (fst a) l2 = Some v) by (apply aget_nodup; assumption). assert (aget (fst a) l2 = Some v2) by (apply aget_nodup; assumption). congruence.
  - apply find_some in F1 as [I1 E1]. apply (Permutation_in _ P) in I1. apply (find_none _ _ F2) in I1. congruence.
  - apply find_some in F2 as [I2 E2]. apply (Permutation_in _ (Permutation_sym P)) in I2. apply (find_none _ _ F1) in I2. congruence.
Qed.
