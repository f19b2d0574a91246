(** Theorems about release hooks. *)
From Verif Require Import Base Base_lemmas Maps Order_spec Hook_model Hook_spec Hook_proofs.
Open Scope string_scope. Open Scope list_scope.

Definition old_hook : factory nat := fun _ => Some (Custom 1).
Definition new_hook : factory nat := fun p => if is_nil p then None else Some (Custom 2).
Definition filed : list (text * factory nat) := [(T "mail", old_hook); (T "tag", old_hook); (T "mail", new_hook)].

(** ** C319 *)
(** A hook is made by the latest registration of its name; a name that was never registered is an error. *)
Theorem C319_latest : forall (A : Type) (l : list (text * factory A)) n p h, create_hook (after l) n p = Some h <-> exists f, latest l n f /\ f p = Some h.
Proof.
  intros A l n p h. unfold create_hook. destruct (aget n (after l)) as [f|] eqn:E.
  - apply after_get in E. split; [eauto|]. intros (g & G & H). apply after_get in G. apply after_get in E. congruence.
  - split; [discriminate|]. intros (g & G & _). apply after_get in G. congruence.
Qed.
Print Assumptions C319_latest.
(** The types listed are the names registered, each once. *)
Theorem C319_types : forall (A : Type) (l : list (text * factory A)) ord, any_order ord -> NoDup (hook_types ord (after l)) /\ forall n, In n (hook_types ord (after l)) <-> In n (map fst l).
Proof.
  intros A l ord O. unfold hook_types. split; [apply (Permutation_NoDup (Permutation_sym (O _))), after_nodup|]. intros n. rewrite <- (after_keys l n).
  split; apply Permutation_in; [|apply Permutation_sym]; apply O.
Qed.
Print Assumptions C319_types.
Example C319_example : latest filed (T "mail") new_hook /\ create_hook (after filed) (T "mail") (T "/src") = Some (Custom 2) /\ create_hook (after filed) (T "tag") (T "/src") = Some (Custom 1) /\
  create_hook (after filed) (T "chat") (T "/src") = None /\ hook_types (@rev text) (after filed) = [T "tag"; T "mail"].
Proof. split; [exists [(T "mail", old_hook); (T "tag", old_hook)], []; split; [reflexivity|intros []]|]. vm_compute. auto. Qed.

(** ** C320 *)
(** Hooks come in the order of their names, a name given twice gives two hooks, and only those that cannot be made are left out. *)
Theorem C320_order : forall (A : Type) (r : registry A) ns p hs, create_hooks r ns p = hs <-> picked (fun n => create_hook r n p) ns hs.
Proof. intros A r ns p hs. split; [intros <-; apply hooks_picked|]. intros H. exact (picked_same _ _ _ _ (hooks_picked r ns p) H). Qed.
Print Assumptions C320_order.
Theorem C320_complete : forall (A : Type) (r : registry A) ns p, length (create_hooks r ns p) = length ns <-> forall n, In n ns -> create_hook r n p <> None.
Proof.
  intros A r ns p. assert (L : forall l, length (create_hooks r l p) <= length l) by (induction l as [|n l IH]; cbn [create_hooks length]; [auto|]; destruct (create_hook r n p); cbn [length]; auto using le_n_S).
  induction ns as [|n ns IH]; cbn [create_hooks]; [split; [intros _ n []|reflexivity]|]. destruct (create_hook r n p) as [h|] eqn:E; cbn [length].
  - split.
    + intros H. injection H as H. intros m [<-|M]; [congruence|]. apply (proj1 IH H m M).
    + intros H. f_equal. apply IH. intros m M. apply H. right. exact M.
  - split; [|intros H; destruct (H n (or_introl eq_refl) E)]. intros H. specialize (L ns). rewrite H in L. exfalso. exact (Nat.nle_succ_diag_l _ L).
Qed.
Print Assumptions C320_complete.
Example C320_example : create_hooks (after filed) [T "tag"; T "chat"; T "mail"; T "tag"] (T "/src") = [Custom 1; Custom 2; Custom 1].
Proof. vm_compute. reflexivity. Qed.

(** ** C321 *)
(** The built-in hooks are there whatever was registered before, other names stay, and only the one for web requests can fail: it is made
    exactly when a configuration with an address is read. *)
Theorem C321_builtin : forall (A : Type) ej et wj wt fs (r : registry A) p, let b := register_builtin ej et wj wt fs r in
  create_hook b (T "noop") p = Some Noop /\ create_hook b (T "logging") p = Some Logging /\ (exists c, create_hook b (T "email") p = Some (Email c)) /\
  (forall h, create_hook b (T "webhook") p = Some h <-> exists c, configured wj wt fs p c /\ w_url c <> [] /\ h = Web c) /\
  forall n, ~ In n [T "noop"; T "logging"; T "email"; T "webhook"] -> create_hook b n p = create_hook r n p.
Proof.
  intros A ej et wj wt fs r p b. assert (G : forall n, aget n b = if text_eqb n (T "webhook") then Some (new_web wj wt fs) else if text_eqb n (T "email") then Some (new_email ej et fs)
    else if text_eqb n (T "logging") then Some (fun _ => Some Logging) else if text_eqb n (T "noop") then Some (fun _ => Some Noop) else aget n r).
  { intros n. unfold b, register_builtin, register.
    destruct (text_eqb_spec n (T "webhook")) as [->|N1]; [apply aget_put_same|rewrite aget_put_other by exact N1].
    destruct (text_eqb_spec n (T "email")) as [->|N2]; [apply aget_put_same|rewrite aget_put_other by exact N2].
    destruct (text_eqb_spec n (T "logging")) as [->|N3]; [apply aget_put_same|rewrite aget_put_other by exact N3].
    destruct (text_eqb_spec n (T "noop")) as [->|N4]; [apply aget_put_same|rewrite aget_put_other by exact N4; reflexivity]. }
  unfold create_hook. rewrite !G. split; [reflexivity|]. split; [reflexivity|]. split; [eexists; reflexivity|]. split.
  - intros h. change (text_eqb (T "webhook") (T "webhook")) with true. cbn [andb]. unfold new_web. destruct (read_config wj wt fs p) as [c|] eqn:R.
    + destruct (is_nil (w_url c)) eqn:U.
      * split; [discriminate|]. intros (c' & K & N & _). apply config_read in K. assert (c' = c) as -> by congruence. apply is_nil_true in U. contradiction.
      * split; [intros [= <-]; exists c; split; [apply config_read, R|split; [apply is_nil_false, U|reflexivity]]|]. intros (c' & K & N & ->). apply config_read in K. assert (c' = c) as -> by congruence. reflexivity.
    + cbn. split; [discriminate|]. intros (c' & K & _). apply config_read in K. congruence.
  - intros n N. rewrite G. assert (E : forall k, In k [T "noop"; T "logging"; T "email"; T "webhook"] -> text_eqb n k = false).
    { intros k K. destruct (text_eqb_spec n k) as [->|X]; [contradiction|reflexivity]. }
    rewrite !E by (cbn; auto). reflexivity.
Qed.
Print Assumptions C321_builtin.
Definition site (p : text) : at_path :=
  if text_eqb p (T "/c/hook.json") then Content (T "http://a") else if text_eqb p (T "/c/hook.toml") then Content [] else if text_eqb p (T "/src") then Unreadable else Missing.
Definition url_is (t : text) : option web_config := Some (mkWeb t (T "POST") [] 30).
Definition mails (t : text) : option email_config := if is_nil t then None else Some (mkEmail (T "mx") 25 (T "me") [t] true).
Definition built : registry nat := register_builtin mails mails url_is (fun _ => None) site (after filed).
Example C321_example : configured url_is (fun _ => None) site (T "/c/hook.json") (mkWeb (T "http://a") (T "POST") [] 30) /\ create_hook built (T "webhook") (T "/c/hook.json") <> None /\
  create_hook built (T "webhook") (T "/c/hook.toml") = None /\ create_hook built (T "mail") (T "/src") = Some (Custom 2).
Proof.
  split; [|split; [discriminate|split; vm_compute; reflexivity]]. exists (T "http://a"). split; [reflexivity|]. split; [intros _; reflexivity|]. intros H. destruct H. exists (T "/c/hoo"), "k"%char. split; [reflexivity|discriminate].
Qed.

(** ** C322 *)
(** A mail hook whose configuration is missing or broken is made all the same, and has nobody to write to. *)
Theorem C322_refuted : forall (A : Type) ej et wj wt fs (r : registry A) p, (forall c, ~ configured ej et fs p c) ->
  exists c, create_hook (register_builtin ej et wj wt fs r) (T "email") p = Some (Email c) /\ m_to c = [].
Proof.
  intros A ej et wj wt fs r p N. exists default_email. split; [|reflexivity]. unfold create_hook, register_builtin, register. rewrite aget_put_other by discriminate. rewrite aget_put_same.
  unfold new_email. destruct (read_config ej et fs p) as [c|] eqn:R; [|reflexivity]. apply config_read in R. destruct (N c R).
Qed.
Print Assumptions C322_refuted.
(** A configuration that is read is used as it is. *)
Theorem C322_used_partial : forall (A : Type) ej et wj wt fs (r : registry A) p c, configured ej et fs p c ->
  create_hook (register_builtin ej et wj wt fs r) (T "email") p = Some (Email c).
Proof.
  intros A ej et wj wt fs r p c K. unfold create_hook, register_builtin, register. rewrite aget_put_other by discriminate. rewrite aget_put_same. unfold new_email. apply config_read in K. rewrite K. reflexivity.
Qed.
Print Assumptions C322_used_partial.
(** The argument is documented as the directory with the released source: for a directory no hook for web requests is ever made, and the
    mail hook has nobody to write to. *)
Theorem C322_directory_refuted : forall (A : Type) ej et wj wt fs (r : registry A) p, fs p = Unreadable ->
  create_hook (register_builtin ej et wj wt fs r) (T "webhook") p = None /\ exists c, create_hook (register_builtin ej et wj wt fs r) (T "email") p = Some (Email c) /\ m_to c = [].
Proof.
  intros A ej et wj wt fs r p D. split.
  - destruct (create_hook (register_builtin ej et wj wt fs r) (T "webhook") p) as [h|] eqn:E; [|reflexivity].
    destruct (C321_builtin A ej et wj wt fs r p) as (_ & _ & _ & H & _). apply H in E. destruct E as (c & (t & K & _) & _). congruence.
  - apply C322_refuted. intros c (t & K & _). congruence.
Qed.
Print Assumptions C322_directory_refuted.
Example C322_example : (forall c, ~ configured mails mails site (T "/c/hook.toml") c) /\ site (T "/src") = Unreadable /\
  create_hook built (T "email") (T "/c/hook.toml") = Some (Email default_email) /\ create_hook built (T "email") (T "/c/hook.json") = Some (Email (mkEmail (T "mx") 25 (T "me") [T "http://a"] true)).
Proof.
  split; [|split; [reflexivity|split; vm_compute; reflexivity]]. intros c K. apply config_read in K. vm_compute in K. discriminate K.
Qed.
