(** Properties C236-C247: tests of packages, commands in a context, completion, finding programs. *)
From Verif Require Import Base Base_lemmas Text_lemmas Maps Sorting Files_model Query_model Try_model Try_spec Try_proofs Try_more.
Open Scope string_scope. Open Scope list_scope.

(** ** C236: which tests are chosen *)
Lemma names_nodup tests : NoDup (akeys tests) -> NoDup (test_names tests).
Proof. exact (sort_nodup (akeys tests)). Qed.
Lemma find_some other ends tests req : NoDup (akeys tests) -> req <> [] -> (forall p, In p req -> In "*"%char p -> plain_pattern p) ->
  find_names other ends tests req = Some (firsts (flat_map (fun p => filter (selects ends p) (test_names tests)) req)).
Proof. intros ND NE H. unfold find_names. destruct req as [|p r]; [contradiction|]. now rewrite pick_names_spec by (exact (names_nodup tests ND) || exact H). Qed.
(** the library chooses exactly the tests that a request means, each once, by request and then by name *)
Theorem C236_library_partial other tests req (sel : text -> text -> bool) :
  NoDup (akeys tests) -> req <> [] -> (forall p, In p req -> In "*"%char p -> plain_pattern p) -> (forall n, In n (akeys tests) -> one_line n) ->
  (forall p n, sel p n = true <-> Glob p n) ->
  exists ns sorted, find_names other true tests req = Some ns
    /\ Permutation sorted (akeys tests) /\ in_order sorted /\ ns = firsts (flat_map (fun p => filter (sel p) sorted) req)
    /\ NoDup ns /\ forall n, In n ns <-> In n (akeys tests) /\ exists p, In p req /\ Glob p n.
Proof.
  intros ND NE PL OL SEL. exists (firsts (flat_map (fun p => filter (selects true p) (test_names tests)) req)), (test_names tests).
  assert (X : forall p n, In p req -> In n (akeys tests) -> (selects true p n = true <-> Glob p n)).
  { intros p n Ip In'. unfold selects. destruct (has_char "*" p) eqn:S.
    - apply whole_glob; [apply PL; [exact Ip|now apply has_char_in]|now apply OL].
    - apply has_char_not in S. rewrite text_eqb_eq. split; [intros <-; now apply glob_self|intros G; symmetry; now apply glob_no_star]. }
  split; [now apply find_some|]. split; [apply sort_perm|]. split; [now apply sort_in_order|]. split.
  - f_equal. assert (Y : forall l, (forall p, In p l -> In p req) -> flat_map (fun p => filter (selects true p) (test_names tests)) l = flat_map (fun p => filter (sel p) (test_names tests)) l).
    { induction l as [|p l IH]; intros Hl; [reflexivity|]. cbn. rewrite IH by (intros q I; apply Hl; now right). f_equal. apply filter_ext_in. intros n I.
      apply eq_true_iff_eq. rewrite SEL. apply X; [apply Hl; now left|]. unfold test_names in I. now apply sort_in in I. }
    apply Y. auto.
  - split; [apply firsts_after_nodup|]. intros n. unfold firsts. rewrite firsts_after_in, in_flat_map. split.
    + intros [(p & Ip & I) _]. apply filter_In in I. destruct I as [I S]. apply sort_in in I. split; [exact I|]. exists p. split; [exact Ip|]. now apply X.
    + intros [I (p & Ip & G)]. split; [|auto]. exists p. split; [exact Ip|]. apply filter_In. split; [now apply sort_in|]. now apply X.
Qed.
Print Assumptions C236_library_partial.
(** without a request all tests are run, by name *)
Theorem C236_all other ends tests : NoDup (akeys tests) ->
  exists ns, find_names other ends tests [] = Some ns /\ Permutation ns (akeys tests) /\ in_order ns.
Proof. intros ND. exists (test_names tests). split; [reflexivity|]. split; [apply sort_perm|now apply sort_in_order]. Qed.
Print Assumptions C236_all.
(** the command chooses every test with a part that the request means *)
Theorem C236_command_partial other tests p : NoDup (akeys tests) -> In "*"%char p -> plain_pattern p -> (forall n, In n (akeys tests) -> one_line n) ->
  exists ns, find_names other false tests [p] = Some ns /\ forall n, In n ns <-> In n (akeys tests) /\ exists a v b, n = a ++ v ++ b /\ Glob p v.
Proof.
  intros ND S PL OL. exists (firsts (flat_map (fun p => filter (selects false p) (test_names tests)) [p])). split.
  { apply find_some; [exact ND|discriminate|]. intros q [<-|[]] _. exact PL. }
  assert (SE : forall n, selects false p n = within (map piece_of p) n) by (intros n; unfold selects; now rewrite (proj2 (has_char_in "*" p) S)).
  intros n. unfold firsts. rewrite firsts_after_in, in_flat_map. split.
  - intros [(q & [<-|[]] & I) _]. apply filter_In in I. destruct I as [I F]. rewrite SE in F. apply sort_in in I. split; [exact I|]. apply within_spec in F. destruct F as (a & v & b & E & F).
    exists a, v, b. split; [exact E|]. apply whole_glob in F; [exact F|exact PL|]. intros J. apply (OL _ I). rewrite E, !in_app_iff. tauto.
  - intros [I (a & v & b & E & G)]. split; [|auto]. exists p. split; [now left|]. apply filter_In. split; [now apply sort_in|]. rewrite SE. apply within_spec. exists a, v, b. split; [exact E|].
    apply whole_glob; [exact PL| |exact G]. intros J. apply (OL _ I). rewrite E, !in_app_iff. tauto.
Qed.
Print Assumptions C236_command_partial.
(** so a name and a star chooses the tests that have the name anywhere *)
Theorem C236_command_refuted other tests p a b : NoDup (akeys tests) -> plain_pattern p -> ~ In "*"%char p -> (forall n, In n (akeys tests) -> one_line n) ->
  In (a ++ p ++ b) (akeys tests) -> ~ headed p (a ++ p ++ b) ->
  ~ Glob (p ++ T "*") (a ++ p ++ b) /\ exists ns, find_names other false tests [p ++ T "*"] = Some ns /\ In (a ++ p ++ b) ns.
Proof.
  intros ND PL NS OL I NH. split.
  - intros G. apply NH. revert G NS. clear. generalize (a ++ p ++ b). induction p as [|c p IH]; intros t G NS; [now exists t|]. cbn in G. inversion G as [|? u v G1|? ? v N G1]; subst; [exfalso; apply NS; now left|].
    destruct (IH v G1) as (r & ->); [intros J; apply NS; now right|]. now exists r.
  - destruct (C236_command_partial other tests (p ++ T "*") ND) as (ns & E & H).
    + apply in_or_app. right. now left.
    + intros c J. apply in_app_or in J. destruct J as [J|[<-|[]]]; [now apply PL|]. cbn. intuition discriminate.
    + exact OL.
    + exists ns. split; [exact E|]. apply H. split; [exact I|]. exists a, (p ++ []), b. split; [now rewrite app_nil_r|]. clear -NS. induction p as [|c p IH]; cbn.
      * apply (Glob_star [] [] []). constructor.
      * constructor; [intros ->; apply NS; now left|]. apply IH. intros J. apply NS. now right.
Qed.
Print Assumptions C236_command_refuted.
Example C236_example other :
  find_names other true [(T "unit_a", T "x"); (T "big_unit", T "y"); (T "lint", T "z")] [T "lint"; T "unit*"; T "l*"] = Some [T "lint"; T "unit_a"]
  /\ find_names other false [(T "unit_a", T "x"); (T "big_unit", T "y"); (T "lint", T "z")] [T "unit*"] = Some [T "big_unit"; T "unit_a"]
  /\ ~ Glob (T "unit*") (T "big_unit") /\ plain_pattern (T "unit*") /\ one_line (T "big_unit").
Proof.
  split; [reflexivity|]. split; [reflexivity|]. split; [intros G; cbn in G; inversion G|]. split.
  - intros c I J. cbn in I, J. repeat (destruct I as [<-|I]; [revert J; intuition discriminate|]). destruct I.
  - unfold one_line. cbn. intuition discriminate.
Qed.
(** a dot stands for any character *)
Theorem C236_dot_refuted other : exists tests p n, find_names other true tests [p] = Some [n] /\ ~ Glob p n.
Proof. exists [(T "v1x0", T "x")], (T "v1.*"), (T "v1x0"). split; [reflexivity|]. intros G. cbn in G. inversion G as [| |? ? ? ? G1]; subst. inversion G1 as [| |? ? ? ? G2]; subst. inversion G2. Qed.
Print Assumptions C236_dot_refuted.

(** ** C237: the code of the command *)
Section C237.
Variable W : Type. Variable run : text -> W -> W * ended.
Lemma run_command_runs other a tests skip w ns : test_names tests <> [] -> ta_list a = false -> find_names other false tests (ta_names a) = Some ns -> ns <> [] ->
  run_command run other a tests skip w = let '(w, rs, z) := run_all run tests skip (ta_dry a) (ta_stop a) ns w [] 0 in (w, rs, Some (seen_code z)).
Proof. intros H1 H2 H3 H4. unfold run_command. destruct (test_names tests); [contradiction|]. cbn [is_nil]. rewrite H2, H3. destruct ns; [contradiction|reflexivity]. Qed.
(** if tests are run, the command succeeds exactly if none failed; otherwise it ends with the code of the first that did *)
Theorem C237_code_partial other a tests skip w ns w' rs z : test_names tests <> [] -> ta_list a = false -> find_names other false tests (ta_names a) = Some ns -> ns <> [] ->
  (forall c w z o e, snd (run c w) = Code z o e -> (0 <= z < 256)%Z) ->
  run_command run other a tests skip w = (w', rs, z) ->
  (z = Some 0%Z <-> forall r, In r rs -> tr_status r = TPassed \/ tr_status r = TSkipped)
  /\ (z <> Some 0%Z -> exists l r m, rs = l ++ r :: m /\ (forall q, In q l -> tr_status q = TPassed \/ tr_status q = TSkipped) /\ (tr_status r = TFailed \/ tr_status r = TError) /\ z = Some (tr_code r mod 256)%Z).
Proof.
  intros H1 H2 H3 H4 RG E. rewrite (run_command_runs other a tests skip w ns H1 H2 H3 H4) in E. rewrite run_all_spec in E. cbn [fst snd app] in E. injection E as _ <- <-.
  set (k := if ta_stop a then _ else _). set (L := results W run tests skip (ta_dry a) ns w).
  assert (J : forall ns w r, In r (results W run tests skip (ta_dry a) ns w) -> (tr_code r = 0%Z /\ (tr_status r = TPassed \/ tr_status r = TSkipped)) \/ ((tr_code r = (-1)%Z \/ 0 < tr_code r < 256)%Z /\ (tr_status r = TFailed \/ tr_status r = TError))).
  { clear -RG. intros ns. induction ns as [|n ns IH]; intros w r I; [destruct I|]. cbn in I. destruct I as [<-|I]; [|exact (IH _ _ I)].
    unfold run_test. destruct skip; [left; cbn; auto|]. destruct (ta_dry a); [left; cbn; auto|]. destruct (aget n tests) as [c|]; [|right; cbn; auto].
    destruct (run c w) as [w1 e] eqn:R. assert (RG' := RG c w). rewrite R in RG'. cbn in RG'. destruct e as [e|z o e|o e]; cbn.
    - right. cbn. auto.
    - specialize (RG' z o e eq_refl). destruct z; cbn; [left; auto|right; split; [right; lia|auto]|lia].
    - right. cbn. auto. }
  assert (S0 : forall r, In r (firstn k L) -> In r L). { intros r I. rewrite <- (firstn_skipn k L). apply in_or_app. now left. }
  destruct (first_code_in (firstn k L)) as [F|(l & r & m & EL & AL & NZ & F)].
  - rewrite F. split; [|intros X; exfalso; apply X; reflexivity]. split; [|reflexivity]. intros _ r I. apply first_code_zero in F. rewrite Forall_forall in F. specialize (F r I). destruct (J ns w r (S0 r I)) as [[_ X]|[X _]]; [exact X|lia].
  - rewrite F, EL. assert (Ir : In r L) by (apply S0; rewrite EL; apply in_or_app; right; now left). destruct (J ns w r Ir) as [[X _]|[X Y]]; [contradiction|].
    assert (NZ2 : (tr_code r mod 256 <> 0)%Z). { destruct X as [->|X]; [discriminate|]. rewrite Z.mod_small by lia. exact NZ. }
    split.
    + split; [intros X2; injection X2 as X2; contradiction|]. intros H. exfalso. specialize (H r ltac:(apply in_or_app; right; now left)). destruct Y as [Y|Y], H as [H|H]; congruence.
    + intros _. exists l, r, m. split; [reflexivity|]. split; [|split; [exact Y|reflexivity]]. intros q I. rewrite Forall_forall in AL. specialize (AL q I).
      destruct (J ns w q (S0 q ltac:(rewrite EL; apply in_or_app; now left))) as [[_ Q]|[Q _]]; [exact Q|lia].
Qed.
(** if none of the names asked for is that of a test, nothing is run and the command succeeds *)
Theorem C237_unknown_refuted other a tests skip w : ta_names a <> [] -> (forall p, In p (ta_names a) -> ~ In "*"%char p /\ ~ In p (akeys tests)) ->
  run_command run other a tests skip w = (w, [], Some 0%Z).
Proof.
  intros NE H. unfold run_command. destruct (is_nil (test_names tests)); [reflexivity|]. destruct (ta_list a); [reflexivity|].
  assert (E : find_names other false tests (ta_names a) = Some []).
  { unfold find_names. destruct (ta_names a) as [|p r]; [contradiction|]. clear NE. revert H. generalize (p :: r). intros l. induction l as [|q l IH]; intros H; [reflexivity|].
    cbn [pick_names]. destruct (H q ltac:(now left)) as [H1 H2]. rewrite (proj2 (has_char_not "*" q) H1). assert (M : mem_text q (test_names tests) = false).
    { destruct (mem_text q (test_names tests)) eqn:M; [|reflexivity]. unfold mem_text in M. apply existsb_exists in M. destruct M as (y & I & M). apply text_eqb_eq in M. subst y. apply sort_in in I. contradiction. }
    rewrite M. apply IH. intros s I. apply H. now right. }
  now rewrite E.
Qed.

(** ** C238: what is run and what is reported *)
(** the tests are run in order, each in the world that the one before left, to the end or, if asked, to the first that fails *)
Theorem C238_order other a tests w ns w' rs z : test_names tests <> [] -> ta_list a = false -> find_names other false tests (ta_names a) = Some ns -> ns <> [] -> ta_dry a = false ->
  (forall n, In n ns -> In n (akeys tests)) -> run_command run other a tests None w = (w', rs, z) ->
  exists k, map tr_name rs = firstn k ns /\ w' = fold_left (fun w n => match aget n tests with Some c => fst (run c w) | None => w end) (firstn k ns) w
    /\ (ta_stop a = false -> k = length ns)
    /\ (ta_stop a = true -> Forall (fun r => tr_code r = 0%Z) (removelast rs) /\ ((k < length ns)%nat -> exists l r, rs = l ++ [r] /\ tr_code r <> 0%Z)).
Proof.
  intros H1 H2 H3 H4 HD HI E. rewrite (run_command_runs other a tests None w ns H1 H2 H3 H4) in E. rewrite run_all_spec in E. cbn [fst snd app] in E. injection E as <- <- _. rewrite HD in *.
  exists (if ta_stop a then until (results W run tests None false ns w) else length ns). set (k := if ta_stop a then _ else _).
  split; [rewrite <- firstn_map, results_names; reflexivity|]. split.
  - unfold after. assert (S0 : forall n, In n (firstn k ns) -> In n (akeys tests)). { intros n I. apply HI. rewrite <- (firstn_skipn k ns). apply in_or_app. now left. }
    revert S0. generalize (firstn k ns). clear. intros l. revert w. induction l as [|n l IH]; intros w S0; [reflexivity|]. cbn. rewrite <- IH by (intros m I; apply S0; now right). f_equal.
    unfold run_test. destruct (aget n tests) as [c|] eqn:G; [|reflexivity]. destruct (run c w) as [w1 e]. cbn. destruct (judge e) as [[[s o] er] z]. reflexivity.
  - split; [intros S; unfold k; now rewrite S|]. intros S. unfold k. rewrite S. destruct (until_spec (results W run tests None false ns w)) as [U1 U2]. split; [exact U1|].
    intros L. apply U2. now rewrite results_length.
Qed.
(** each test is given the result of its command *)
Theorem C238_result tests n c w : aget n tests = Some c ->
  let r := snd (run_test run tests None false n w) in
  tr_name r = n /\ (tr_status r = TPassed <-> exists o e, snd (run c w) = Code 0 o e) /\ (tr_status r = TError <-> exists e, snd (run c w) = NoStart e) /\ tr_status r <> TSkipped
  /\ forall o e z, (snd (run c w) = Code z o e \/ (snd (run c w) = Signal o e /\ z = (-1)%Z)) -> tr_out r = o /\ tr_code r = z /\ (e <> [] -> tr_err r = Some e).
Proof.
  intros G r. subst r. unfold run_test. rewrite G. destruct (run c w) as [w1 [e|z o e|o e]]; cbn.
  - split; [reflexivity|]. split; [split; [discriminate|intros (o & x & X); discriminate]|]. split; [split; [intros _; now exists e|reflexivity]|]. split; [discriminate|]. intros o x z [X|[X _]]; discriminate.
  - destruct z as [|p|p]; cbn.
    + split; [reflexivity|]. split; [split; [intros _; now exists o, e|reflexivity]|]. split; [split; [discriminate|intros (x & X); discriminate]|]. split; [discriminate|].
      intros o' e' z [X|[X _]]; [|discriminate]. injection X as <- <- <-. split; [reflexivity|]. split; [reflexivity|]. destruct e; [contradiction|reflexivity].
    + split; [reflexivity|]. split; [split; [discriminate|intros (x & y & X); discriminate]|]. split; [split; [discriminate|intros (x & X); discriminate]|]. split; [discriminate|].
      intros o' e' z [X|[X _]]; [|discriminate]. injection X as <- <- <-. split; [reflexivity|]. split; [reflexivity|]. destruct e; [contradiction|reflexivity].
    + split; [reflexivity|]. split; [split; [discriminate|intros (x & y & X); discriminate]|]. split; [split; [discriminate|intros (x & X); discriminate]|]. split; [discriminate|].
      intros o' e' z [X|[X _]]; [|discriminate]. injection X as <- <- <-. split; [reflexivity|]. split; [reflexivity|]. destruct e; [contradiction|reflexivity].
  - split; [reflexivity|]. split; [split; [discriminate|intros (x & y & X); discriminate]|]. split; [split; [discriminate|intros (x & X); discriminate]|]. split; [discriminate|].
    intros o' e' z [X|[X ->]]; [discriminate|]. injection X as <- <-. split; [reflexivity|]. split; [reflexivity|]. destruct e; [contradiction|reflexivity].
Qed.
(** a dry run, or one in an environment without the package, runs nothing *)
Theorem C238_skipped other a tests skip w : ta_dry a = true \/ skip <> None ->
  exists rs z, run_command run other a tests skip w = (w, rs, z) /\ (forall r, In r rs -> tr_status r = TSkipped) /\ (z = Some 0%Z \/ z = None).
Proof.
  intros H. unfold run_command. destruct (is_nil (test_names tests)); [exists [], (Some 0%Z); cbn; tauto|]. destruct (ta_list a); [exists [], (Some 0%Z); cbn; tauto|].
  destruct (find_names other false tests (ta_names a)) as [[|n ns]|]; [exists [], (Some 0%Z); cbn; tauto| |exists [], None; cbn; tauto].
  rewrite run_all_spec. cbn [app].
  assert (X : forall n w, run_test run tests skip (ta_dry a) n w = (w, snd (run_test run tests skip (ta_dry a) n w)) /\ tr_status (snd (run_test run tests skip (ta_dry a) n w)) = TSkipped /\ tr_code (snd (run_test run tests skip (ta_dry a) n w)) = 0%Z).
  { intros m v. unfold run_test. destruct skip; [auto|]. destruct H as [->|H]; [auto|contradiction]. }
  set (k := if ta_stop a then _ else _).
  assert (Y : forall l w, (forall r, In r (results W run tests skip (ta_dry a) l w) -> tr_status r = TSkipped /\ tr_code r = 0%Z)).
  { induction l as [|m l IH]; intros v r I; [destruct I|]. cbn in I. destruct I as [<-|I]; [apply X|exact (IH _ _ I)]. }
  assert (S0 : forall r, In r (firstn k (results W run tests skip (ta_dry a) (n :: ns) w)) -> tr_status r = TSkipped /\ tr_code r = 0%Z).
  { intros r I. apply (Y (n :: ns) w). rewrite <- (firstn_skipn k (results W run tests skip (ta_dry a) (n :: ns) w)). apply in_or_app. now left. }
  exists (firstn k (results W run tests skip (ta_dry a) (n :: ns) w)), (Some 0%Z). split; [|split; [intros r I; now apply S0|now left]].
  assert (Z0 : first_code 0 (firstn k (results W run tests skip (ta_dry a) (n :: ns) w)) = 0%Z) by (refine (proj2 (first_code_zero _) _); apply Forall_forall; intros r I; exact (proj2 (S0 r I))).
  rewrite Z0. assert (A : forall l w, after W run tests skip (ta_dry a) l w = w). { unfold after. induction l as [|m l IH]; intros v; [reflexivity|]. cbn. destruct (X m v) as [E _]. rewrite E. cbn. apply IH. }
  rewrite A. reflexivity.
Qed.
End C237.
Print Assumptions C237_code_partial. Print Assumptions C237_unknown_refuted. Print Assumptions C238_order. Print Assumptions C238_result. Print Assumptions C238_skipped.
(** the summary says that all tests passed exactly if none was skipped or failed; its numbers add up *)
Theorem C238_summary_partial rs : (forall r, In r rs -> tr_status r <> TSkipped) ->
  (verdict rs = Some true <-> rs <> [] /\ forall r, In r rs -> tr_status r = TPassed).
Proof.
  intros NS. unfold verdict. destruct (existsb _ rs) eqn:E.
  - split; [discriminate|]. intros [_ H]. apply existsb_exists in E. destruct E as (r & I & E). rewrite (H r I) in E. discriminate.
  - destruct rs as [|r0 rs]; cbn [is_nil]; [split; [discriminate|tauto]|]. split; [|reflexivity]. intros _. split; [discriminate|]. intros r I.
    assert (X : match tr_status r with TFailed | TError => true | _ => false end = false). { destruct (match tr_status r with TFailed | TError => true | _ => false end) eqn:X; [|reflexivity]. rewrite <- E. symmetry. apply existsb_exists. now exists r. }
    specialize (NS r I). destruct (tr_status r); congruence.
Qed.
Print Assumptions C238_summary_partial.
Theorem C238_counts rs : (count_status TPassed rs + count_status TFailed rs + count_status TSkipped rs + count_status TError rs)%nat = length rs.
Proof. unfold count_status. induction rs as [|r rs IH]; [reflexivity|]. cbn. destruct (tr_status r); cbn; lia. Qed.
Print Assumptions C238_counts.
(** if all were skipped it says that all passed *)
Theorem C238_summary_refuted rs : rs <> [] -> (forall r, In r rs -> tr_status r = TSkipped) -> verdict rs = Some true /\ count_status TPassed rs = 0%nat.
Proof.
  intros NE H. assert (X : existsb (fun r => match tr_status r with TFailed | TError => true | _ => false end) rs = false).
  { destruct (existsb _ rs) eqn:E; [|reflexivity]. apply existsb_exists in E. destruct E as (r & I & E). rewrite (H r I) in E. discriminate. }
  unfold verdict. rewrite X. destruct rs as [|r0 rs]; [contradiction|]. split; [reflexivity|]. unfold count_status.
  assert (Y : forall l, (forall r, In r l -> tr_status r = TSkipped) -> filter (fun r => match TPassed, tr_status r with TPassed, TPassed | TFailed, TFailed | TSkipped, TSkipped | TError, TError => true | _, _ => false end) l = []).
  { induction l as [|r l IH]; intros Hl; [reflexivity|]. cbn. rewrite (Hl r) by now left. apply IH. intros q I. apply Hl. now right. }
  now rewrite (Y _ H).
Qed.
Print Assumptions C238_summary_refuted.
Definition C237_run (c : text) (w : list text) : list text * ended := (w ++ [c], if text_eqb c (T "false") then Code 3 [] [] else Code 0 (T "fine") []).
Example C237_example other :
  run_command C237_run other (mkTargs [] false false false) [(T "b", T "false"); (T "a", T "true"); (T "c", T "ls")] None []
    = ([T "true"; T "false"; T "ls"], [mkTresult (T "a") TPassed (T "fine") None 0; mkTresult (T "b") TFailed [] (Some (T "Process exited with code 3")) 3; mkTresult (T "c") TPassed (T "fine") None 0], Some 3%Z)
  /\ run_command C237_run other (mkTargs [] false false true) [(T "b", T "false"); (T "a", T "true"); (T "c", T "ls")] None []
    = ([T "true"; T "false"], [mkTresult (T "a") TPassed (T "fine") None 0; mkTresult (T "b") TFailed [] (Some (T "Process exited with code 3")) 3], Some 3%Z)
  /\ run_command C237_run other (mkTargs [T "typo"] false false true) [(T "b", T "false")] None [] = ([], [], Some 0%Z)
  /\ (forall c w z o e, snd (C237_run c w) = Code z o e -> (0 <= z < 256)%Z).
Proof. split; [reflexivity|]. split; [reflexivity|]. split; [reflexivity|]. intros c w z o e H. unfold C237_run in H. cbn [snd] in H. destruct (text_eqb c (T "false")); injection H as <- _ _; lia. Qed.
Example C238_example : verdict [mkTresult (T "a") TSkipped [] None 0] = Some true /\ verdict [mkTresult (T "a") TPassed [] None 0; mkTresult (T "b") TError [] None (-1)] = Some false.
Proof. split; reflexivity. Qed.

(** ** C239: which package is tested *)
(** without a package in the working directory, it is the last directory by text of the first path that has one with a package file *)
Theorem C239_found_partial wd spec paths x d b : exists_at (wd ++ [T "package.py"]) x = false -> locate wd spec paths x = Some (d, b) ->
  b = true /\ exists before p after v es, paths = before ++ p :: after /\ d = p ++ [spec; v] /\ get (p ++ [spec]) x = Some (Dir es) /\ (exists fs, In (v, Dir fs) es)
    /\ exists_at (p ++ [spec; v; T "package.py"]) x = true /\ (forall u fs, In (u, Dir fs) es -> text_cmp u v <> Gt) /\ locate wd spec before x = None.
Proof.
  intros NX L. unfold locate in *. rewrite NX in *. destruct (locate_in spec paths x) as [d'|] eqn:E; [|discriminate]. injection L as <- <-. split; [reflexivity|].
  apply locate_in_spec in E. destruct E as (a & p & r & v & t & es & -> & -> & G & V & X & N). exists a, p, r, v, es. split; [reflexivity|]. split; [reflexivity|]. split; [exact G|].
  assert (Iv : In v (version_dirs (Dir es))) by (apply in_rev; rewrite V; now left). split; [now apply version_dirs_in|]. split; [exact X|]. split.
  - intros u fs I. apply (version_dirs_last es v t V). apply version_dirs_in. now exists fs.
  - now rewrite N.
Qed.
Print Assumptions C239_found_partial.
(** a package in the working directory is tested whatever was asked for *)
Theorem C239_refuted wd spec paths x : exists_at (wd ++ [T "package.py"]) x = true -> locate wd spec paths x = Some (wd, false).
Proof. intros H. unfold locate. now rewrite H. Qed.
Print Assumptions C239_refuted.
(** a name with a version is not found *)
Theorem C239_version_refuted wd spec paths x : exists_at (wd ++ [T "package.py"]) x = false -> (forall p, In p paths -> get (p ++ [spec]) x = None) -> locate wd spec paths x = None.
Proof. intros H N. unfold locate. now rewrite H, locate_in_none. Qed.
Print Assumptions C239_version_refuted.
(** version 1.9 is taken for later than 1.10 *)
Theorem C239_latest_refuted : exists wd spec p x, locate wd spec [p] x = Some (p ++ [spec; T "1.9"], true) /\ exists_at (p ++ [spec; T "1.10"; T "package.py"]) x = true.
Proof.
  exists [T "w"], (T "foo"), [T "p"], (Dir [(T "p", Dir [(T "foo", Dir [(T "1.10", Dir [(T "package.py", File [])]); (T "1.9", Dir [(T "package.py", File [])])])])]). split; reflexivity.
Qed.
Print Assumptions C239_latest_refuted.
(** the paths that are searched: those given, then those of the configuration, without the local one if so asked *)
Theorem C239_paths given config local no_local p : In p (test_paths given config local no_local) <-> In p given \/ (In p config /\ (no_local = true -> p <> local)).
Proof. apply test_paths_in. Qed.
Print Assumptions C239_paths.
Theorem C239_paths_order given config local no_local : (exists more, test_paths given config local no_local = given ++ more) /\ (NoDup given -> NoDup (test_paths given config local no_local)).
Proof.
  split; [|apply test_paths_nodup]. unfold test_paths. revert given. induction config as [|q c IH]; intros given; cbn [fold_left]; [exists []; now rewrite app_nil_r|].
  destruct (_ && _); [|apply IH]. destruct (IH (given ++ [q])) as (m & ->). exists (q :: m). now rewrite <- app_assoc.
Qed.
Print Assumptions C239_paths_order.
Definition C239_tree : node := Dir [(T "p", Dir [(T "foo", Dir [(T "1.0", Dir [(T "package.py", File [])]); (T "2.0", Dir [(T "package.py", File [])]); (T "notes", File [])])]); (T "w", Dir [])].
Example C239_example : locate [T "w"] (T "foo") [[T "q"]; [T "p"]] C239_tree = Some ([T "p"; T "foo"; T "2.0"], true) /\ locate [T "w"] (T "foo-1.0") [[T "p"]] C239_tree = None
  /\ exists_at [T "w"; T "package.py"] C239_tree = false /\ test_paths [[T "q"]] [[T "p"]; [T "l"]; [T "q"]] [T "l"] true = [[T "q"]; [T "p"]].
Proof. repeat split; reflexivity. Qed.

(** ** C240: the environment of the tests *)
Section C240.
Variable resolve : list text -> option (list tpkg). Variable parses : text -> bool.
(** a package in the working directory gets the environment of its first variant that can be resolved, with itself last *)
Theorem C240_variant p extra ps : test_packages resolve parses p extra false = Some ps ->
  exists before set after rest, (match tp_variants p with [] => [[]] | vs => vs end) = before ++ set :: after
    /\ (forall v, In v before -> resolve (tp_requires p ++ extra ++ v) = None /\ forallb parses (tp_requires p ++ extra ++ v) = true)
    /\ ((tp_requires p ++ extra ++ set = [] /\ rest = []) \/ resolve (tp_requires p ++ extra ++ set) = Some rest)
    /\ ps = rest ++ [with_pre_test p].
Proof.
  unfold test_packages. intros H. destruct (first_solution resolve parses (requirement_sets p extra false)) as [rest|] eqn:E; [|discriminate]. injection H as <-.
  assert (R : requirement_sets p extra false = map (fun v => tp_requires p ++ extra ++ v) (match tp_variants p with [] => [[]] | vs => vs end)).
  { unfold requirement_sets. destruct (tp_variants p) as [|v vs]; [cbn; now rewrite app_nil_r|]. apply map_ext. intros u. now rewrite app_assoc. }
  rewrite R in E. clear R. revert E. generalize (match tp_variants p with [] => [[]] | vs => vs end). intros l. induction l as [|v l IH]; [discriminate|]. cbn [map first_solution].
  destruct (tp_requires p ++ extra ++ v) as [|c s] eqn:S.
  - intros E. injection E as <-. exists [], v, l, []. split; [reflexivity|]. split; [intros u []|]. split; [left; auto|reflexivity].
  - destruct (forallb parses (c :: s)) eqn:P; [|discriminate]. destruct (resolve (c :: s)) as [r|] eqn:Q.
    + intros E. injection E as <-. exists [], v, l, r. split; [reflexivity|]. split; [intros u []|]. split; [right; congruence|reflexivity].
    + intros E. destruct (IH E) as (b & w & a & r & -> & B & C & D). exists (v :: b), w, a, r. split; [reflexivity|]. split; [|auto]. intros u [<-|I]; [|now apply B]. rewrite S. auto.
Qed.
(** the commands before tests come after the other commands, with those of the tested package only *)
Theorem C240_commands p : tp_pre_test (with_pre_test p) = None /\ tp_name (with_pre_test p) = tp_name p /\ tp_version (with_pre_test p) = tp_version p
  /\ tp_post (with_pre_test p) = match tp_pre_test p, tp_post p with None, o => o | Some c, None => Some c | Some c, Some o => Some (o ++ ["010"%char] ++ c) end.
Proof. unfold with_pre_test. destruct (tp_pre_test p) eqn:E; cbn; repeat split; try exact E; destruct (tp_post p); reflexivity. Qed.
(** a requirement of the first variant that cannot be read ends it all, whatever the other variants need *)
Theorem C240_unreadable_refuted p extra v vs r : tp_variants p = v :: vs -> In r v -> parses r = false -> test_packages resolve parses p extra false = None.
Proof.
  intros V I P. unfold test_packages, requirement_sets. rewrite V. cbn [map first_solution]. destruct ((tp_requires p ++ extra) ++ v) as [|c s] eqn:S; [apply app_eq_nil in S; destruct S as [_ ->]; destruct I|].
  assert (F : forallb parses (c :: s) = false). { destruct (forallb parses (c :: s)) eqn:F; [|reflexivity]. rewrite forallb_forall in F. rewrite F in P; [discriminate|]. rewrite <- S. apply in_or_app. now right. }
  now rewrite F.
Qed.
(** an installed package is tested in whatever version the solver gives for its name and version *)
Theorem C240_other_refuted p q extra rest : parses (qualified p) = true -> forallb parses extra = true -> resolve (qualified p :: extra) = Some (q :: rest) -> tp_name q = tp_name p ->
  test_packages resolve parses p extra true = Some (with_pre_test q :: rest).
Proof.
  intros P F R N. unfold test_packages, requirement_sets. cbn [first_solution forallb]. rewrite P, F, R. cbn [prepare_first andb]. now rewrite N, text_eqb_refl.
Qed.
(** a package that is not in its environment is an error *)
Theorem C240_absent p extra ps : resolve (qualified p :: extra) = Some ps -> (forall q, In q ps -> tp_name q <> tp_name p) -> test_packages resolve parses p extra true = None.
Proof.
  intros R N. unfold test_packages, requirement_sets. cbn [first_solution]. destruct (forallb parses (qualified p :: extra)); [|reflexivity]. rewrite R.
  clear R. induction ps as [|q ps IH]; [reflexivity|]. cbn. destruct (text_eqb (tp_name q) (tp_name p)) eqn:E; [apply text_eqb_eq in E; exfalso; apply (N q); [now left|exact E]|]. now rewrite IH by (intros s I; apply N; now right).
Qed.
End C240.
Print Assumptions C240_variant. Print Assumptions C240_commands. Print Assumptions C240_unreadable_refuted. Print Assumptions C240_other_refuted. Print Assumptions C240_absent.
(** in place, the tests run in the directory of the package if it is there and no other version is known to be *)
Theorem C240_inplace root version expected is_dir r : inplace_root root version expected is_dir = Some r <-> root = Some r /\ is_dir r = true /\ (forall a b, expected = Some a -> version = Some b -> a = b).
Proof.
  unfold inplace_root. destruct root as [q|]; [|split; [discriminate|intros [H _]; discriminate]]. destruct (is_dir q) eqn:D; cbn [andb].
  - destruct expected as [a|], version as [b|]; try (split; [intros H; injection H as <-; repeat split; auto; intros; discriminate|intros (H & _); exact H]).
    destruct (text_eqb a b) eqn:E.
    + apply text_eqb_eq in E. subst. split; [intros H; injection H as <-; repeat split; auto; intros x y X Y; congruence|intros (H & _); exact H].
    + split; [discriminate|]. intros (_ & _ & H). rewrite (H a b eq_refl eq_refl), text_eqb_refl in E. discriminate.
  - split; [discriminate|]. intros (H & X & _). injection H as ->. congruence.
Qed.
Print Assumptions C240_inplace.
Example C240_example : let p := mkTpkg (T "foo") (Some (T "1.0")) [T "python"] [[T "a"]; [T "b"]] (Some (T "x")) (Some (T "y")) in
  test_packages (fun s => if mem_text (T "a") s then None else Some [mkTpkg (T "b") None [] [] None None]) (fun _ => true) p [] false
    = Some [mkTpkg (T "b") None [] [] None None; mkTpkg (T "foo") (Some (T "1.0")) [T "python"] [[T "a"]; [T "b"]] None (Some (T "y" ++ ["010"%char] ++ T "x"))]
  /\ test_packages (fun s => Some [mkTpkg (T "foo") (Some (T "1.0.5")) [] [] None None]) (fun _ => true) p [] true = Some [mkTpkg (T "foo") (Some (T "1.0.5")) [] [] None None]
  /\ inplace_root (Some (T "/r")) (Some (T "1.0")) (Some (T "1.0")) (fun _ => true) = Some (T "/r") /\ inplace_root (Some (T "/r")) (Some (T "2.0")) (Some (T "1.0")) (fun _ => true) = None.
Proof. repeat split; reflexivity. Qed.

(** ** C241: how the library reads the command of a test *)
Lemma bare_not_ws c : bare_char c -> is_ws c = false.
Proof.
  intros [H|H].
  - destruct (is_ws c) eqn:E; [|reflexivity]. exfalso. revert H E. unfold is_alnum, is_alpha, is_lower, is_upper, is_digit, is_ws, in_codes. intros H E.
    repeat rewrite ?orb_true_iff, ?andb_true_iff, ?N.leb_le, ?N.eqb_eq in *. lia.
  - cbn in H. repeat (destruct H as [<-|H]; [reflexivity|]). destruct H.
Qed.
(** words without anything special are the program and its arguments, as for the shell *)
Theorem C241_words_partial ws : (2 <= length ws)%nat -> Forall (fun w => word_fine (Bare w)) ws ->
  shell_reads (line_of ws) ws /\ lib_argv (line_of ws) = Some ws.
Proof.
  intros L F. split.
  - exists (map Bare ws). split; [destruct ws; [cbn in L; lia|discriminate]|]. split; [clear L; induction F; constructor; auto|]. rewrite !map_map. cbn. now rewrite !map_id.
  - assert (FW : Forall is_word ws). { eapply Forall_impl; [|exact F]. intros w [NE C]. split; [exact NE|]. intros c I. now apply bare_not_ws, C. }
    unfold lib_argv, lib_command. assert (S : has_char " " (line_of ws) = true). { apply has_char_in. destruct ws as [|w [|v ws]]; cbn in L; try lia. change (line_of (w :: v :: ws)) with (w ++ " "%char :: line_of (v :: ws)). apply in_or_app. right. now left. }
    rewrite S, split_ws_line by exact FW. destruct ws; [cbn in L; lia|reflexivity].
Qed.
Print Assumptions C241_words_partial.
(** one word is given to the shell *)
Theorem C241_shell c : ~ In " "%char c -> lib_argv c = Some [T "sh"; T "-c"; c].
Proof. intros N. unfold lib_argv, lib_command. now rewrite (proj2 (has_char_not " " c) N). Qed.
Print Assumptions C241_shell.
(** an argument in quotes with two words becomes two, with the quotes *)
Theorem C241_quotes_refuted p a b : word_fine (Bare p) -> word_fine (Bare a) -> word_fine (Bare b) ->
  let line := p ++ T " '" ++ a ++ T " " ++ b ++ T "'" in
  shell_reads line [p; a ++ T " " ++ b] /\ lib_argv line = Some [p; T "'" ++ a; b ++ T "'"].
Proof.
  intros [P1 P2] [A1 A2] [B1 B2] line. assert (NQ : forall c, bare_char c -> c <> "'"%char). { intros c H ->. destruct H as [H|H]; [discriminate|]. cbn in H. intuition discriminate. }
  split.
  - exists [Bare p; Quoted (a ++ T " " ++ b)]. split; [discriminate|]. split.
    + constructor; [now split|]. constructor; [|constructor]. cbn. intros I. apply in_app_or in I. destruct I as [I|[I|I]]; [exact (NQ _ (A2 _ I) eq_refl)|discriminate|exact (NQ _ (B2 _ I) eq_refl)].
    + split; [|reflexivity]. subst line. cbn [map written join]. change (T " '") with (T " " ++ ["'"%char]). rewrite <- !app_assoc. cbn. now rewrite <- !app_assoc.
  - assert (E : line = line_of [p; T "'" ++ a; b ++ T "'"]). { subst line. unfold line_of. cbn [join]. change (T " '") with (T " " ++ T "'"). now rewrite <- !app_assoc. }
    rewrite E. unfold lib_argv, lib_command. assert (S : has_char " " (line_of [p; T "'" ++ a; b ++ T "'"]) = true) by (apply has_char_in; unfold line_of; cbn [join]; apply in_or_app; right; now left).
    rewrite S, split_ws_line; [reflexivity|]. repeat constructor; try discriminate; try assumption.
    + intros c I. now apply bare_not_ws, P2.
    + intros c [<-|I]; [reflexivity|]. now apply bare_not_ws, A2.
    + destruct b; discriminate.
    + intros c I. apply in_app_or in I. destruct I as [I|[<-|[]]]; [now apply bare_not_ws, B2|reflexivity].
Qed.
Print Assumptions C241_quotes_refuted.
(** of two commands only the first is run, with the other as its arguments *)
Theorem C241_both_refuted a b : word_fine (Bare a) -> word_fine (Bare b) -> lib_argv (a ++ T " && " ++ b) = Some [a; T "&&"; b] /\ cli_argv (a ++ T " && " ++ b) = [T "sh"; T "-c"; a ++ T " && " ++ b].
Proof.
  intros [A1 A2] [B1 B2]. split; [|reflexivity]. assert (E : a ++ T " && " ++ b = line_of [a; T "&&"; b]) by reflexivity. rewrite E. unfold lib_argv, lib_command.
  assert (S : has_char " " (line_of [a; T "&&"; b]) = true) by (apply has_char_in; unfold line_of; cbn [join]; apply in_or_app; right; now left). rewrite S, split_ws_line; [reflexivity|].
  repeat constructor; try discriminate; try assumption; intros c I; [now apply bare_not_ws, A2| |now apply bare_not_ws, B2]. cbn in I. intuition (subst; reflexivity).
Qed.
Print Assumptions C241_both_refuted.
Example C241_example : lib_argv (T "python -m pytest") = Some [T "python"; T "-m"; T "pytest"] /\ lib_argv (T "python -c 'import foo'") = Some [T "python"; T "-c"; T "'import"; T "foo'"]
  /\ lib_argv (T " ") = None /\ lib_argv (T "pytest") = Some [T "sh"; T "-c"; T "pytest"] /\ Forall (fun w => word_fine (Bare w)) [T "python"; T "-m"; T "pytest"].
Proof.
  do 4 (split; [reflexivity|]). constructor; [|constructor; [|constructor; [|constructor]]]; (split; [discriminate|]); intros c I; cbn in I; repeat (destruct I as [<-|I]; [first [now left|right; cbn; tauto]|]); destruct I.
Qed.

(** ** C242: the environment of commands in a context *)
(** a command, and a process, has the variables of the configuration, then those of the context, then if so asked those of the parent, and no others *)
Theorem C242_command context c parent k : NoDup (akeys context) -> NoDup (akeys (ec_more c)) ->
  let layers := [fun k => aget k (ec_more c); fun k => aget k context; fun k => if ec_inherit c then aget k parent else None] in
  aget k (command_env (with_config context c) parent) = layered layers k /\ aget k (process_env context c parent) = layered layers k.
Proof.
  intros NC NM layers. assert (X : NoDup (akeys (extend context (ec_more c)))).
  { clear NM layers. unfold extend. revert context NC. induction (ec_more c) as [|[k0 v0] m IH]; intros ctx NC; [exact NC|]. cbn. apply IH. now apply nodup_put. }
  unfold command_env, process_env, with_config. cbn [ex_inherit ex_env]. rewrite !extend_get by assumption. subst layers. cbn.
  destruct (aget k (ec_more c)); [auto|]. destruct (aget k context); [auto|]. destruct (ec_inherit c); [|auto]. destruct (aget k parent); auto.
Qed.
Print Assumptions C242_command.
(** a script and an interactive shell have every variable of the parent even if it is not to be inherited *)
Theorem C242_refuted context c parent k v : NoDup (akeys context) -> NoDup (akeys (ec_more c)) -> ec_inherit c = false -> aget k parent = Some v -> aget k context = None -> aget k (ec_more c) = None ->
  aget k (script_env (with_config context c) parent) = Some v /\ aget k (command_env (with_config context c) parent) = None.
Proof.
  intros NC NM I P C M. assert (X : NoDup (akeys (extend context (ec_more c)))).
  { clear -NC. unfold extend. revert context NC. induction (ec_more c) as [|[k0 v0] m IH]; intros ctx NC; [exact NC|]. cbn. apply IH. now apply nodup_put. }
  unfold script_env, command_env, with_config. cbn [ex_inherit ex_env]. rewrite !extend_get by assumption. rewrite M, C, I, P. auto.
Qed.
Print Assumptions C242_refuted.
(** what a script has of the context is right *)
Theorem C242_script_partial context c parent k v : NoDup (akeys context) -> NoDup (akeys (ec_more c)) -> layered [fun k => aget k (ec_more c); fun k => aget k context] k = Some v -> aget k (script_env (with_config context c) parent) = Some v.
Proof.
  intros NC NM L. assert (X : NoDup (akeys (extend context (ec_more c)))).
  { clear -NC. unfold extend. revert context NC. induction (ec_more c) as [|[k0 v0] m IH]; intros ctx NC; [exact NC|]. cbn. apply IH. now apply nodup_put. }
  unfold script_env, with_config. cbn [ex_inherit ex_env]. rewrite !extend_get by assumption. cbn in L. destruct (aget k (ec_more c)); [exact L|]. destruct (aget k context); [exact L|discriminate].
Qed.
Print Assumptions C242_script_partial.
(** setting a configuration is the same as starting with it *)
Theorem C242_config context c old : set_config context c old = with_config context c.
Proof. unfold set_config, with_config. destruct (ec_dir c); reflexivity. Qed.
Print Assumptions C242_config.
Example C242_example : let c := mkEconfig Bash None false [(T "X", T "1")] in
  command_env (with_config [(T "PATH", T "/p")] c) [(T "PYTHONPATH", T "/old"); (T "PATH", T "/bin")] = [(T "PATH", T "/p"); (T "X", T "1")]
  /\ script_env (with_config [(T "PATH", T "/p")] c) [(T "PYTHONPATH", T "/old"); (T "PATH", T "/bin")] = [(T "PYTHONPATH", T "/old"); (T "PATH", T "/p"); (T "X", T "1")].
Proof. split; reflexivity. Qed.

(** ** C243: several commands *)
Section C243.
Variable W : Type. Variable execute : text -> W -> W * (Z + text).
Fixpoint C243_all (cs : list text) (w : W) (zs : list Z) : Prop := match cs, zs with [] , [] => True | c :: cs, z :: zs => snd (execute c w) = inl z /\ C243_all cs (fst (execute c w)) zs | _, _ => False end.
(** commands that can be run are run in order, whatever their codes, and all codes are given *)
Theorem C243_order_partial cs w zs : C243_all cs w zs -> execute_batch execute cs w [] = (fold_left (fun w c => fst (execute c w)) cs w, inl zs).
Proof.
  assert (X : forall cs w zs acc, C243_all cs w zs -> execute_batch execute cs w acc = (fold_left (fun w c => fst (execute c w)) cs w, inl (acc ++ zs))).
  { clear. induction cs as [|c cs IH]; intros w [|z zs] acc H; try destruct H; cbn; [now rewrite app_nil_r|]. destruct (execute c w) as [w1 r]. cbn in *. subst r. rewrite IH with (zs := zs) by assumption. now rewrite <- app_assoc. }
  intros H. exact (X cs w zs [] H).
Qed.
(** if one cannot be run, what the others did stays but their codes are lost, and nothing after it is run *)
Theorem C243_lost_refuted before c after w zs e : C243_all before w zs -> (forall w, snd (execute c w) = inr e) ->
  execute_batch execute (before ++ c :: after) w [] = (fst (execute c (fold_left (fun w c => fst (execute c w)) before w)), inr e).
Proof.
  intros H E. assert (X : forall cs w zs acc, C243_all cs w zs -> execute_batch execute (cs ++ c :: after) w acc = (fst (execute c (fold_left (fun w c => fst (execute c w)) cs w)), inr e)).
  { induction cs as [|d cs IH]; intros v [|z ys] acc X; try destruct X; cbn.
    - specialize (E v). destruct (execute c v) as [w1 r]. cbn in *. now subst r.
    - destruct (execute d v) as [w1 r]. cbn in *. subst r. now apply IH with (zs := ys). }
  exact (X before w zs [] H).
Qed.
End C243.
Print Assumptions C243_order_partial. Print Assumptions C243_lost_refuted.
Definition C243_exec (c : text) (w : list text) : list text * (Z + text) := if text_eqb c (T "sleep") then (w, inr (T "Command execution timeout")) else (w ++ [c], inl (if text_eqb c (T "false") then 1%Z else 0%Z)).
Example C243_example : execute_batch C243_exec [T "a"; T "false"; T "b"] [] [] = ([T "a"; T "false"; T "b"], inl [0; 1; 0]%Z) /\ execute_batch C243_exec [T "a"; T "sleep"; T "b"] [] [] = ([T "a"], inr (T "Command execution timeout")).
Proof. split; reflexivity. Qed.

(** ** C244: a command that takes too long *)
Theorem C244_in_time_partial limit doings finish : (finish <= limit)%nat -> execute_timed limit doings finish = (finish, true, doings).
Proof. intros H. unfold execute_timed. now rewrite (proj2 (Nat.leb_le finish limit) H). Qed.
Print Assumptions C244_in_time_partial.
(** after the error, the command goes on and does all that it would have done *)
Theorem C244_refuted limit doings finish : (limit < finish)%nat -> exists t d, execute_timed limit doings finish = (t, false, d) /\ t = limit /\ forall s e, In (s, e) doings -> In (s, e) d.
Proof. intros H. exists limit, doings. unfold execute_timed. rewrite (proj2 (Nat.leb_gt finish limit) H). auto. Qed.
Print Assumptions C244_refuted.
Example C244_example : execute_timed 300 [(1, T "mkdir x"); (400, T "rm y")]%nat 500 = (300, false, [(1, T "mkdir x"); (400, T "rm y")])%nat.
Proof. reflexivity. Qed.

(** ** C245: which shell is used *)
Theorem C245_detect_partial d s : In s [Bash; Zsh; Fish] -> ~ part_of (T "bash") d -> ~ part_of (T "zsh") d -> ~ part_of (T "fish") d -> detect_shell (Some (d ++ T "/" ++ executable s)) = s.
Proof.
  intros Is N1 N2 N3. assert (X : forall n e, In n [T "bash"; T "zsh"; T "fish"] -> ~ part_of n d -> ~ part_of n e -> contains_text n (d ++ T "/" ++ e) = false).
  { intros n e In' N NE. destruct (contains_text n (d ++ T "/" ++ e)) eqn:E; [|reflexivity]. exfalso. apply contains_part in E. apply part_slash in E; [tauto|]. cbn in In'. destruct In' as [<-|[<-|[<-|[]]]]; cbn; intuition discriminate. }
  assert (Y : forall e, contains_text e (d ++ T "/" ++ e) = true) by (intros e; apply contains_part; exists (d ++ T "/"), []; now rewrite app_nil_r, <- app_assoc).
  assert (P : forall n e, contains_text n e = false -> ~ part_of n e) by (intros n e H K; apply contains_part in K; congruence).
  unfold detect_shell. destruct Is as [<-|[<-|[<-|[]]]]; cbn [executable].
  - now rewrite Y.
  - rewrite (X (T "bash")) by (cbn; auto || (apply P; reflexivity)). now rewrite Y.
  - rewrite (X (T "bash")) by (cbn; auto || (apply P; reflexivity)). rewrite (X (T "zsh")) by (cbn; auto || (apply P; reflexivity)). now rewrite Y.
Qed.
Print Assumptions C245_detect_partial.
(** a directory whose name has bash in it makes any shell bash *)
Theorem C245_detect_refuted d s : part_of (T "bash") d -> detect_shell (Some (d ++ T "/" ++ executable s)) = Bash.
Proof. intros (a & b & ->). unfold detect_shell. assert (C : contains_text (T "bash") ((a ++ T "bash" ++ b) ++ T "/" ++ executable s) = true) by (apply contains_part; exists a, (b ++ T "/" ++ executable s); now rewrite <- !app_assoc). now rewrite C. Qed.
Print Assumptions C245_detect_refuted.
(** what is started is named like the shell, and is a file unless there is none on the path *)
Theorem C245_path s comspec shellvar dirs is_file : s <> Cmd ->
  let p := executable_path s comspec shellvar dirs is_file in
  file_name_of p = executable s /\ (is_file p = true \/ (p = executable s /\ forall d, In d dirs -> is_file (path_join d (executable s)) = false)).
Proof.
  intros NC p. assert (O : file_name_of (on_path s dirs is_file) = executable s /\ (is_file (on_path s dirs is_file) = true \/ (on_path s dirs is_file = executable s /\ forall d, In d dirs -> is_file (path_join d (executable s)) = false))).
  { unfold on_path. destruct (executable_name s) as [N NE]. destruct (filter is_file (map (fun d => path_join d (executable s)) dirs)) as [|f l] eqn:F.
    - split; [unfold file_name_of; now rewrite split_none|]. right. split; [reflexivity|]. intros d I. destruct (is_file (path_join d (executable s))) eqn:E; [|reflexivity]. exfalso.
      assert (K : In (path_join d (executable s)) (filter is_file (map (fun d => path_join d (executable s)) dirs))) by (apply filter_In; split; [apply in_map_iff; now exists d|exact E]). rewrite F in K. destruct K.
    - assert (K : In f (filter is_file (map (fun d => path_join d (executable s)) dirs))) by (rewrite F; now left). apply filter_In in K. destruct K as [K1 K2]. apply in_map_iff in K1. destruct K1 as (d & <- & _).
      split; [now apply file_name_join|now left]. }
  subst p. unfold executable_path. assert (M : match s, comspec with Cmd, Some c => if is_file c then Some c else None | _, _ => None end = None) by (destruct s; try reflexivity; contradiction). rewrite M.
  destruct shellvar as [v|]; [|exact O]. destruct (is_file v && text_eqb (file_name_of v) (executable s)) eqn:E; [|exact O]. apply andb_true_iff in E. destruct E as [E1 E2]. apply text_eqb_eq in E2. auto.
Qed.
Print Assumptions C245_path.
(** the value of SHELL is used if it names that shell, and otherwise the first directory of the path that has it *)
Theorem C245_choice s shellvar dirs is_file : s <> Cmd -> forall comspec,
  (forall v, shellvar = Some v -> is_file v = true -> file_name_of v = executable s -> executable_path s comspec shellvar dirs is_file = v)
  /\ (forall a d b, shellvar = None -> dirs = a ++ d :: b -> (forall e, In e a -> is_file (path_join e (executable s)) = false) -> is_file (path_join d (executable s)) = true -> executable_path s comspec shellvar dirs is_file = path_join d (executable s)).
Proof.
  intros NC comspec. assert (M : match s, comspec with Cmd, Some c => if is_file c then Some c else None | _, _ => None end = None) by (destruct s; try reflexivity; contradiction).
  unfold executable_path. rewrite M. split.
  - intros v -> F N. rewrite F, N, text_eqb_refl. reflexivity.
  - intros a d b -> -> A D. unfold on_path. rewrite map_app, filter_app. cbn [map filter]. rewrite D. replace (filter is_file (map (fun d => path_join d (executable s)) a)) with (@nil text); [reflexivity|].
    symmetry. clear D M. induction a as [|e a IH]; [reflexivity|]. cbn. rewrite A by now left. apply IH. intros x I. apply A. now right.
Qed.
Print Assumptions C245_choice.
Example C245_example : detect_shell (Some (T "/usr/bin/zsh")) = Zsh /\ detect_shell (Some (T "/home/bashir/bin/fish")) = Bash /\ part_of (T "bash") (T "/home/bashir/bin")
  /\ executable_path Zsh None (Some (T "/bin/bash")) [T "/opt"; T "/usr/bin/"] (text_eqb (T "/usr/bin/zsh")) = T "/usr/bin/zsh".
Proof. split; [reflexivity|]. split; [reflexivity|]. split; [exists (T "/home/"), (T "ir/bin"); reflexivity|reflexivity]. Qed.

(** ** C246: completion *)
Lemma complete_end names line : complete_line names line (length line) = Some match split_ws line with [] => subcommands | [w] => filter (starts_with w) subcommands | _ :: sub :: r => if mem_text sub package_subcommands then filter (starts_with (last r [])) names else [] end.
Proof. unfold complete_line. now rewrite Nat.ltb_irrefl. Qed.
Lemma mem_in x l : mem_text x l = true <-> In x l.
Proof. unfold mem_text. rewrite existsb_exists. split; [intros (y & I & E); apply text_eqb_eq in E; now subst|intros I; exists x; split; [exact I|apply text_eqb_refl]]. Qed.
(** a word after a subcommand for packages is completed to the names that start with it *)
Theorem C246_packages_partial names prog sub ws w : Forall is_word (prog :: sub :: ws ++ [w]) -> In sub package_subcommands ->
  let line := line_of (prog :: sub :: ws ++ [w]) in
  exists out, complete_line names line (length line) = Some out /\ forall n, In n out <-> In n names /\ headed w n.
Proof.
  intros F S line. subst line. rewrite complete_end, split_ws_line by exact F. rewrite (proj2 (mem_in _ _) S). rewrite last_last. eexists. split; [reflexivity|]. intros n. now rewrite filter_In, starts_headed.
Qed.
Print Assumptions C246_packages_partial.
(** a new first word after such a subcommand is completed to all names *)
Theorem C246_all names prog sub : is_word prog -> is_word sub -> In sub package_subcommands -> let line := line_of [prog; sub] ++ T " " in complete_line names line (length line) = Some names.
Proof.
  intros P S I line. subst line. rewrite complete_end, split_ws_blank by (repeat constructor; apply P || apply S). rewrite (proj2 (mem_in _ _) I). cbn [last]. f_equal. clear. induction names as [|n l IH]; [reflexivity|]. cbn [filter starts_with]. f_equal. exact IH.
Qed.
Print Assumptions C246_all.
(** a subcommand is never completed after the name of the program *)
Theorem C246_subcommand_refuted names prog : is_word prog -> (forall c, In c subcommands -> ~ headed prog c) ->
  (let line := prog ++ T " " in complete_line names line (length line) = Some []) /\
  forall w, is_word w -> ~ In w package_subcommands -> let line := line_of [prog; w] in complete_line names line (length line) = Some [].
Proof.
  intros P N. assert (X : filter (starts_with prog) subcommands = []).
  { revert N. generalize subcommands. intros l. induction l as [|c l IH]; intros N; [reflexivity|]. cbn. destruct (starts_with prog c) eqn:E; [apply starts_headed in E; exfalso; exact (N c (or_introl eq_refl) E)|]. apply IH. intros d I. apply N. now right. }
  split.
  - intros line. subst line. rewrite complete_end. change (prog ++ T " ") with (line_of [prog] ++ T " "). rewrite split_ws_blank by (repeat constructor; apply P). now rewrite X.
  - intros w Hw NW line. subst line. rewrite complete_end, split_ws_line by (repeat constructor; apply P || apply Hw). destruct (mem_text w package_subcommands) eqn:M; [apply mem_in in M; contradiction|reflexivity].
Qed.
Print Assumptions C246_subcommand_refuted.
(** after a blank, the next word is completed as if it were the one before *)
Theorem C246_blank_refuted names prog sub ws w : Forall is_word (prog :: sub :: ws ++ [w]) -> In sub package_subcommands ->
  let line := line_of (prog :: sub :: ws ++ [w]) ++ T " " in
  exists out, complete_line names line (length line) = Some out /\ forall n, In n out <-> In n names /\ headed w n.
Proof.
  intros F S line. subst line. rewrite complete_end, split_ws_blank by exact F. rewrite (proj2 (mem_in _ _) S). rewrite last_last. eexists. split; [reflexivity|]. intros n. now rewrite filter_In, starts_headed.
Qed.
Print Assumptions C246_blank_refuted.
(** what follows the cursor does not matter *)
Theorem C246_cursor names a b : boundary (length a) (a ++ b) = true -> complete_line names (a ++ b) (length a) = complete_line names a (length a).
Proof.
  intros B. unfold complete_line. rewrite Nat.ltb_irrefl, B. cbn [negb]. rewrite andb_false_r. cbn [andb]. destruct (Nat.ltb_spec (length a) (length (a ++ b))) as [L|L].
  - now rewrite firstn_app, Nat.sub_diag, firstn_all, firstn_O, app_nil_r.
  - rewrite app_length in L. destruct b; [now rewrite app_nil_r|cbn in L; lia].
Qed.
Print Assumptions C246_cursor.
(** within a character of several bytes there is a panic *)
Theorem C246_panic_refuted names a c b : (128 <= code c < 192)%N -> complete_line names (a ++ c :: b) (length a) = None.
Proof.
  intros H. unfold complete_line. assert (L : (length a <? length (a ++ c :: b))%nat = true) by (apply Nat.ltb_lt; rewrite app_length; cbn; lia).
  assert (B : boundary (length a) (a ++ c :: b) = false). { unfold boundary. rewrite nth_error_app2 by lia. rewrite Nat.sub_diag. cbn [nth_error]. rewrite (proj2 (N.leb_le _ _)) by apply H. rewrite (proj2 (N.ltb_lt _ _)) by apply H. reflexivity. }
  now rewrite L, B.
Qed.
Print Assumptions C246_panic_refuted.
(** versions are completed to those that start with the word *)
Theorem C246_versions name versions prefix t : In t (complete_versions name versions prefix) <-> exists v, In (Some v) versions /\ t = name ++ T "-" ++ v /\ headed prefix t.
Proof.
  unfold complete_versions. rewrite in_flat_map. split.
  - intros ([v|] & I & J); [|destruct J]. cbn zeta in J. destruct (starts_with prefix (name ++ T "-" ++ v) || is_nil prefix) eqn:E; [|destruct J]. destruct J as [<-|[]]. exists v. split; [exact I|]. split; [reflexivity|].
    apply orb_true_iff in E. destruct E as [E|E]; [now apply starts_headed|]. destruct prefix; [eexists; reflexivity|discriminate].
  - intros (v & I & -> & H). exists (Some v). split; [exact I|]. cbn zeta. rewrite (proj2 (starts_headed _ _) H). now left.
Qed.
Print Assumptions C246_versions.
Example C246_example : let names := [T "maya"; T "mayapy"; T "nuke"] in
  complete_line names (T "rez env nuke may") 16 = Some [T "maya"; T "mayapy"] /\ complete_line names (T "rez env maya ") 13 = Some [T "maya"; T "mayapy"]
  /\ complete_line names (T "rez en") 6 = Some [] /\ complete_line names (T "rez ") 4 = Some [] /\ (forall c, In c subcommands -> ~ headed (T "rez") c)
  /\ complete_versions (T "maya") [Some (T "2024"); None; Some (T "2025")] (T "maya-2025") = [T "maya-2025"].
Proof.
  split; [reflexivity|]. split; [reflexivity|]. split; [reflexivity|]. split; [reflexivity|]. split; [|reflexivity].
  intros c I H. apply starts_headed in H. cbn in I. repeat (destruct I as [<-|I]; [discriminate|]). destruct I.
Qed.

(** ** C247: finding programs *)
(** a name without separators is found in the first directory of the path that has it, and all of them are listed in order *)
Theorem C247_first_partial pv cd runs c : ~ In "/"%char c -> ~ In "\"%char c ->
  which (Some pv) (Some cd) runs c = hd_error (which_all (Some pv) runs c)
  /\ forall f, In f (which_all (Some pv) runs c) <-> runs f = true /\ exists d, In d (split_on ":" pv) /\ d <> [] /\ f = path_join d c.
Proof.
  intros N1 N2. split.
  - unfold which, which_all. rewrite (proj2 (has_char_not "/" c) N1), (proj2 (has_char_not "\" c) N2). cbn [orb]. destruct (filter runs _); reflexivity.
  - intros f. unfold which_all. rewrite filter_In, in_map_iff. split.
    + intros [(d & <- & I) R]. apply filter_In in I. destruct I as [I NE]. split; [exact R|]. exists d. split; [exact I|]. split; [intros ->; discriminate|reflexivity].
    + intros [R (d & I & NE & ->)]. split; [|exact R]. exists d. split; [reflexivity|]. apply filter_In. split; [exact I|]. destruct d; [contradiction|reflexivity].
Qed.
Print Assumptions C247_first_partial.
Theorem C247_order pv runs c a b x y : filter (fun d => negb (is_nil d)) (split_on ":" pv) = a ++ x :: b -> In y b -> runs (path_join x c) = true -> runs (path_join y c) = true ->
  exists l m, which_all (Some pv) runs c = l ++ path_join x c :: m /\ In (path_join y c) m.
Proof.
  intros E I X Y. unfold which_all. rewrite E, map_app, filter_app. cbn [map filter]. rewrite X. eexists _, _. split; [reflexivity|]. apply filter_In. split; [apply in_map_iff; now exists y|exact Y].
Qed.
Print Assumptions C247_order.
(** a path is looked up as it is, relative to the current directory *)
Theorem C247_path pv cd runs c : In "/"%char c -> which (Some pv) (Some cd) runs c = (let p := if starts_with (T "/") c then c else path_join cd c in if runs p then Some p else None).
Proof. intros I. unfold which. now rewrite (proj2 (has_char_in "/" c) I). Qed.
Print Assumptions C247_path.
(** all programs for an absolute path are that path, once for each directory *)
Theorem C247_all_refuted pv runs c : starts_with (T "/") c = true -> runs c = true ->
  which_all (Some pv) runs c = repeat c (length (filter (fun d => negb (is_nil d)) (split_on ":" pv))).
Proof.
  intros S R. unfold which_all. induction (filter (fun d => negb (is_nil d)) (split_on ":" pv)) as [|d l IH]; [reflexivity|]. cbn [map filter length repeat]. assert (E : path_join d c = c) by (unfold path_join; now rewrite S). rewrite E, R. f_equal. exact IH.
Qed.
Print Assumptions C247_all_refuted.
Example C247_example : which (Some (T "/a::/b/:/c")) (Some (T "/w")) (fun f => mem_text f [T "/b/ls"; T "/c/ls"; T "/w/./x"; T "/bin/sh"]) (T "ls") = Some (T "/b/ls")
  /\ which_all (Some (T "/a::/b/:/c")) (fun f => mem_text f [T "/b/ls"; T "/c/ls"; T "/bin/sh"]) (T "ls") = [T "/b/ls"; T "/c/ls"]
  /\ which_all (Some (T "/a::/b/:/c")) (fun f => mem_text f [T "/bin/sh"]) (T "/bin/sh") = [T "/bin/sh"; T "/bin/sh"; T "/bin/sh"]
  /\ which (Some (T "/a")) (Some (T "/w")) (fun f => mem_text f [T "/w/./x"]) (T "./x") = Some (T "/w/./x").
Proof. repeat split; reflexivity. Qed.
