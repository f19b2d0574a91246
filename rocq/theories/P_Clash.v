(** C170-C171: resolving and collecting conflicts. *)
From Verif Require Import Base Base_lemmas Version_model Maps Requirement_model Order_spec P_Range Clash_model Clash_spec Clash_proofs.
Open Scope string_scope.
Open Scope list_scope.

(** requirements for the examples *)
Definition rq (n s : string) : package_req := mkPkgReq (T n) (Some (T s)) false false.
Definition bare_rq (n : string) : package_req := mkPkgReq (T n) None false false.

(** ** C170 *)
Theorem C170_latest_partial : forall S (c : clash), transitive_versions S -> written_in S (k_reqs c) ->
  exists r, resolve_one LatestWins c = Some r /\ r_name r = k_name c /\ r_modified r = k_sources c /\
    match r_selected r with Some v => greatest_written (k_reqs c) v | None => none_written (k_reqs c) end.
Proof. intros S c TV W. eexists. split; [reflexivity|]. split; [reflexivity|]. split; [reflexivity|]. apply (latest_spec S); assumption. Qed.
Print Assumptions C170_latest_partial.
Theorem C170_earliest_partial : forall S (c : clash), transitive_versions S -> written_in S (k_reqs c) ->
  exists r, resolve_one EarliestWins c = Some r /\ r_name r = k_name c /\ r_modified r = k_sources c /\
    match r_selected r with Some v => least_written (k_reqs c) v | None => none_written (k_reqs c) end.
Proof. intros S c TV W. eexists. split; [reflexivity|]. split; [reflexivity|]. split; [reflexivity|]. apply (earliest_spec S); assumption. Qed.
Print Assumptions C170_earliest_partial.
Theorem C170_compatible_partial : forall (c : clash), exists r, resolve_one FindCompatible c = Some r /\ r_name r = k_name c /\ r_modified r = k_sources c /\
  ((r_how r = CompatibleHow /\ exists q s v, r_selected r = Some v /\ In q (k_reqs c) /\ pr_spec q = Some s /\ parse_version s = Some v /\ forall o t, In o (k_reqs c) -> pr_spec o = Some t -> t = s \/ t = []) \/
   (resolve_one LatestWins c = Some r /\ forall q s v, In q (k_reqs c) -> pr_spec q = Some s -> parse_version s = Some v -> exists o t, In o (k_reqs c) /\ pr_spec o = Some t /\ t <> s /\ t <> [])).
Proof.
  intros c. unfold resolve_one. destruct (candidate_of (k_reqs c) (k_reqs c)) as [v|] eqn:E.
  - eexists. split; [reflexivity|]. split; [reflexivity|]. split; [reflexivity|]. left. split; [reflexivity|]. destruct (candidate_some _ _ _ E) as (q & s & J & A & B & C). exists q, s, v. repeat split; assumption.
  - eexists. split; [reflexivity|]. split; [reflexivity|]. split; [reflexivity|]. right. split; [reflexivity|]. intros q s v J A B. pose proof (candidate_none _ _ E q s v J A B) as N.
    destruct (existsb (fun o => match pr_spec o with Some t => negb (text_eqb t s) && negb (is_nil t) | None => false end) (k_reqs c)) eqn:X.
    + apply existsb_exists in X as (o & Jo & X). destruct (pr_spec o) as [t|] eqn:Et; [|discriminate X]. apply andb_true_iff in X as [X Y]. exists o, t. split; [exact Jo|]. split; [exact Et|].
      split; [intros ->; rewrite (proj2 (text_eqb_eq s s) eq_refl) in X; discriminate X|intros ->; discriminate Y].
    + exfalso. apply N. intros o t Jo Et. destruct (text_eqb t s) eqn:Q; [left; apply text_eqb_eq, Q|]. right. destruct t as [|a t]; [reflexivity|]. exfalso.
      assert (Y : existsb (fun o => match pr_spec o with Some t => negb (text_eqb t s) && negb (is_nil t) | None => false end) (k_reqs c) = true) by (apply existsb_exists; exists o; split; [exact Jo|]; rewrite Et, Q; reflexivity). congruence.
Qed.
Print Assumptions C170_compatible_partial.
Theorem C170_each : forall s cs rs, resolve_conflicts s cs = Some rs <-> Forall2 (fun c r => resolve_one s c = Some r) cs rs.
Proof. exact resolve_all. Qed.
Print Assumptions C170_each.
Theorem C170_fail : forall cs, resolve_conflicts FailOnConflict cs = None <-> cs <> [].
Proof. intros [|c cs]; cbn; split; try discriminate; try reflexivity. intros H. destruct (H eq_refl). Qed.
Print Assumptions C170_fail.
(** the chosen version may break a requirement, and where only ranges are written none is chosen although one fits *)
Theorem C170_refuted :
  (exists c v, resolve_one FindCompatible c = Some (mkResolution (k_name c) (Some v) LatestHow (k_sources c)) /\ existsb (fun r => negb (pkg_satisfied r v)) (k_reqs c) = true) /\
  (exists c, resolve_one FindCompatible c = Some (mkResolution (k_name c) None LatestHow (k_sources c)) /\ exists w, parse_version (T "3.8") = Some w /\ forallb (fun r => pkg_satisfied r w) (k_reqs c) = true).
Proof.
  split.
  - exists (mkClash (T "python") [rq "python" "3.9"; rq "python" "<3.9"] [T "a"; T "b"]). eexists. split; [vm_compute; reflexivity|vm_compute; reflexivity].
  - exists (mkClash (T "python") [rq "python" ">=3.7"; rq "python" "<3.9"] [T "a"; T "b"]). split; [vm_compute; reflexivity|]. eexists. split; [vm_compute; reflexivity|vm_compute; reflexivity].
Qed.
Print Assumptions C170_refuted.
Example C170_example : exists S, transitive_versions S /\ written_in S [rq "python" "3.7"; rq "python" "3.10"; bare_rq "python"; rq "python" ">=3"] /\
  match resolve_one LatestWins (mkClash (T "python") [rq "python" "3.7"; rq "python" "3.10"; bare_rq "python"; rq "python" ">=3"] [T "a"]),
        resolve_one FindCompatible (mkClash (T "python") [rq "python" "3.9"; bare_rq "python"; rq "python" "3.9"] [T "a"]) with
  | Some r, Some q => option_map v_str (r_selected r) = Some (T "3.10") /\ option_map v_str (r_selected q) = Some (T "3.9") /\ r_how q = CompatibleHow
  | _, _ => False end.
Proof.
  exists orderly. split; [exact orderly_transitive|]. split; [|vm_compute; repeat split; reflexivity].
  intros r v J (s & E & P). destruct J as [<-|[<-|[<-|[<-|[]]]]]; cbn [rq bare_rq pr_spec] in E; try discriminate E; injection E as <-; vm_compute in P; try discriminate P; injection P as <-; is_orderly.
Qed.

(** ** C171 *)
Theorem C171_recorded : forall n ks, recorded n ks (get_conflicts (run ks) n).
Proof. exact recorded_get. Qed.
Print Assumptions C171_recorded.
Theorem C171_all : forall ord ks, (forall l, Permutation (ord l) l) -> forall c, In c (all_conflicts ord (run ks)) <-> In c (get_conflicts (run ks) (k_name c)).
Proof. intros ord ks P c. apply all_iff, P. Qed.
Print Assumptions C171_all.
Theorem C171_count : forall ks, exists ns, NoDup ns /\ (forall n, In n ns <-> get_conflicts (run ks) n <> []) /\ count_conflicts (run ks) = length ns /\ (no_conflicts (run ks) = true <-> ns = []).
Proof.
  intros ks. exists (akeys (run ks)). split; [apply run_nodup|]. split; [intros n; apply run_nonempty|]. split; [unfold count_conflicts, akeys; rewrite map_length; reflexivity|].
  unfold no_conflicts, akeys. destruct (run ks); cbn; split; try reflexivity; discriminate.
Qed.
Print Assumptions C171_count.
Example C171_example : let a := mkClash (T "a") [] [T "x"] in let a' := mkClash (T "a") [] [T "y"] in let b := mkClash (T "b") [] [] in
  let m := run [Add a; Add b; Remove (T "a"); Add a'; Add a; Remove (T "c")] in
  get_conflicts m (T "a") = [a'; a] /\ get_conflicts m (T "b") = [b] /\ count_conflicts m = 2 /\ no_conflicts m = false.
Proof. vm_compute. repeat split; reflexivity. Qed.
