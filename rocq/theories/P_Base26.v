(** Properties C36, C37: base-26 names and unique links. *)
From Verif Require Import Base Base_lemmas Maps Order_spec Base26_model Base26_spec Base26_proofs Base26_links.
Open Scope string_scope. Open Scope list_scope.

(** ** C36 *)
(** Repeated successor never fails, visits every non-empty lower-case name exactly once, in order of length then alphabet. *)
Theorem C36_enumeration :
  (forall n, exists s, nth_name n = Some s /\ lowercase s /\ s <> []) /\
  (forall s, lowercase s -> s <> [] -> exists n, nth_name n = Some s /\ forall m, nth_name m = Some s -> m = n) /\
  (forall i j a b, i < j -> nth_name i = Some a -> nth_name j = Some b -> shortlex a b).
Proof.
  split; [intros n; destruct (nth_name_val n) as (s & H1 & H2 & H3 & _); eauto|]. split.
  - intros s L Hne. destruct (nth_name_onto s L Hne) as [n Hn]. exists n. split; [exact Hn|]. intros m Hm. exact (nth_name_inj m n s Hm Hn).
  - exact nth_name_increasing.
Qed.
Print Assumptions C36_enumeration.
(** The successor is the very next name: longer or later, nothing in between. *)
Theorem C36_immediate : forall s n, next_base26 (Some s) = Some n ->
  shortlex s n /\ forall t, lowercase t -> ~ (shortlex s t /\ shortlex t n).
Proof. intros s n H. split; [exact (next_shortlex s n H)|]. intros t. exact (next_no_between s n t H). Qed.
Print Assumptions C36_immediate.
(** Exactly the texts with a character that is not a lower-case letter are rejected. *)
Theorem C36_rejects : forall s, next_base26 (Some s) = None <-> exists c, In c s /\ is_lower c = false.
Proof.
  intros s. rewrite <- next_invalid. split.
  - intros H. destruct (existsb (fun c => negb (is_lower c)) s) eqn:E.
    + apply existsb_exists in E as (c & Hc & Hl). exists c. split; [exact Hc|]. destruct (is_lower c); [discriminate|reflexivity].
    + exfalso. apply H. intros c Hc. destruct (is_lower c) eqn:El; [reflexivity|]. exfalso.
      assert (existsb (fun c => negb (is_lower c)) s = true) as K by (apply existsb_exists; exists c; rewrite El; auto). congruence.
  - intros (c & Hc & Hl) H. rewrite (H c Hc) in Hl. discriminate.
Qed.
Print Assumptions C36_rejects.
(** The payload cache's own successor function agrees on every non-empty lower-case name. *)
Theorem C36_cache_counter : forall s, lowercase s -> s <> [] -> increment_string s = next_base26 (Some s).
Proof. exact increment_agrees. Qed.
Print Assumptions C36_cache_counter.
Example C36_example :
  map nth_name [0; 25; 26; 51; 52; 701; 702] = map (fun s => Some (T s)) ["a"; "z"; "aa"; "az"; "ba"; "zz"; "aaa"] /\
  next_base26 (Some (T "aZ")) = None /\ next_base26 (Some (T "")) = Some (T "a") /\ increment_string (T "zz") = Some (T "aaa") /\
  increment_string (T "") = None.
Proof. vm_compute. repeat split. Qed.

(** ** C37 *)
Lemma id_order : any_order (fun l : dir => l).
Proof. intros l. apply Permutation_refl. Qed.
Lemma rev_order : any_order (@rev (text * entry)).
Proof. intros l. apply Permutation_sym, Permutation_rev. Qed.
(** A target that has a link already gets one of its links back, whatever else happens; only such a target does. *)
Theorem C37_existing : forall ord1 ord2 world source d, any_order ord1 -> any_order ord2 ->
  (exists n, In (n, Link source) d) <-> (exists n, In (n, Link source) d /\ create_link ord1 ord2 world source d = Existing n).
Proof. exact create_existing. Qed.
Print Assumptions C37_existing.
(** A created link has a fresh lower-case name; every earlier entry, and every entry other processes add meanwhile, is kept. *)
Theorem C37_fresh : forall ord1 ord2 world source d n d', any_order ord1 -> any_order ord2 -> additive world ->
  create_link ord1 ord2 world source d = Created n d' ->
  (forall m, ~ In (m, Link source) d) /\
  exists l, d' = (d ++ l) ++ [(n, Link source)] /\ ~ In n (akeys (d ++ l)) /\ lowercase n /\ n <> [].
Proof. exact create_fresh. Qed.
Print Assumptions C37_fresh.
(** Creation of a new link fails exactly when the ten names after the alphabetically last one are all taken. *)
Theorem C37_success_partial : forall ord1 ord2 source d, any_order ord1 -> any_order ord2 -> (forall n, ~ In (n, Link source) d) ->
  exists k, nth_name k = next_base26 (max_name ord2 d) /\
    (create_link ord1 ord2 quiet source d = Exhausted <-> forall j n, j < 10 -> nth_name (k + j) = Some n -> In n (akeys d)).
Proof. exact create_exhausted. Qed.
Print Assumptions C37_success_partial.
(** It succeeds whenever no lower-case name is longer than the alphabetically last one. *)
Theorem C37_even_partial : forall ord1 ord2 source d, any_order ord1 -> any_order ord2 -> even_names d -> (forall n, ~ In (n, Link source) d) ->
  exists n, next_base26 (max_name ord2 d) = Some n /\ create_link ord1 ord2 quiet source d = Created n (d ++ [(n, Link source)]).
Proof. exact create_even. Qed.
Print Assumptions C37_even_partial.
(** The general claim is false, and exactly so: starting from an empty directory, distinct targets can all be linked if and
    only if there are at most 36 of them. *)
Theorem C37_capacity_refuted : forall ord1 ord2 sources, any_order ord1 -> any_order ord2 -> NoDup sources ->
  (link_all ord1 ord2 sources [] <> None <-> length sources <= 36).
Proof. exact link_all_capacity. Qed.
Print Assumptions C37_capacity_refuted.
(** Up to there the links carry the first names of the sequence, in order of creation. *)
Theorem C37_names : forall ord1 ord2 sources, any_order ord1 -> any_order ord2 -> NoDup sources -> length sources <= 36 ->
  exists d, link_all ord1 ord2 sources [] = Some d /\ map snd d = map Link sources /\
    forall i n, i < length sources -> (nth_name i = Some n <-> nth_error (akeys d) i = Some n).
Proof.
  intros ord1 ord2 sources H1 H2 Hn Hl. destruct (link_all_36 ord1 ord2 sources H1 H2 Hn Hl) as (d & E1 & E2 & E3).
  exists d. split; [exact E1|]. split; [exact E3|]. rewrite E2. generalize (length sources). clear. intros k i n.
  assert (forall k, length (names k) = k) as L.
  { intros k0. induction k0 as [|j IH]; [reflexivity|]. cbn [names]. destruct (nth_name_val j) as (m & -> & _). rewrite app_length, IH. cbn. lia. }
  revert i n. induction k as [|k IH]; intros i n Hi; [lia|]. cbn [names]. destruct (nth_name_val k) as (m & Em & _). rewrite Em.
  destruct (Nat.eq_dec i k) as [->|Hik].
  - rewrite nth_error_app2 by (rewrite L; lia). rewrite L, Nat.sub_diag, Em. reflexivity.
  - rewrite nth_error_app1 by (rewrite L; lia). apply IH. lia.
Qed.
Print Assumptions C37_names.
Definition targets (k : nat) : list text := map (fun i => T "/src/" ++ show_N (N.of_nat i)) (seq 0 k).
Example C37_example :
  let d := [(T "a", Link (T "/x")); (T "b", Other); (T "notes.txt", Other); (T "d", Link (T "/y"))] in
  create_link (fun l => l) (@rev _) quiet (T "/y") d = Existing (T "d") /\
  create_link (fun l => l) (@rev _) quiet (T "/z") d = Created (T "e") (d ++ [(T "e", Link (T "/z"))]) /\
  create_link (fun l => l) (@rev _) (fun i d => if Nat.eqb i 1 then d ++ [(T "e", Other)] else d) (T "/z") d
    = Created (T "f") (d ++ [(T "e", Other)] ++ [(T "f", Link (T "/z"))]).
Proof. vm_compute. repeat split. Qed.
Example C37_example_capacity :
  link_all (fun l => l) (@rev _) (targets 37) [] = None /\
  match link_all (fun l => l) (@rev _) (targets 36) [] with Some d => map fst (skipn 34 d) = [T "ai"; T "aj"] | None => False end.
Proof. vm_compute. split; reflexivity. Qed.
Example C37_example_even : even_names [(T "a", Other); (T "c", Link (T "/x")); (T "README", Other)].
Proof.
  assert (~ lowercase (T "README")) as K by (intros L; specialize (L "R"%char (or_introl eq_refl)); discriminate).
  intros m Hm Lm Hmax n Hn Ln. destruct Hn as [<-|[<-|[<-|[]]]]; [| |destruct (K Ln)]; (destruct Hm as [<-|[<-|[<-|[]]]]; [| |destruct (K Lm)]); cbn; lia.
Qed.
